(** Rounding errors of the variance computations in binary64 when the labels are integers. *)
From Coq Require Import Reals Lra Lia ZArith.
From Flocq Require Import Core Relative.
From Flocq Require Import IEEE754.BinarySingleNaN.
From Verif Require Import Base Num F64 ProofScoreF64 ProofRound.
Local Open Scope R_scope.

Definition ulp1 : R := bpow radix2 (-53).
Definition eta1 : R := bpow radix2 (-1075).

Lemma ulp1_pos : 0 < ulp1.
Proof. apply bpow_gt_0. Qed.
Lemma eta1_pos : 0 < eta1.
Proof. apply bpow_gt_0. Qed.
Lemma ulp1_53 : ulp1 * bpow radix2 53 = 1.
Proof. unfold ulp1. rewrite <- bpow_plus. reflexivity. Qed.
Lemma eta1_small : eta1 * bpow radix2 100 <= ulp1.
Proof. unfold eta1, ulp1. rewrite <- bpow_plus. apply bpow_le. lia. Qed.
Lemma ulp1_small : ulp1 * 1000000 <= 1.
Proof.
  rewrite <- ulp1_53. apply Rmult_le_compat_l; [left; exact ulp1_pos|].
  rewrite <- (IZR_Zpower radix2 53) by lia. apply IZR_le. vm_compute. discriminate.
Qed.

Lemma rnd_error x : Rabs (rnd x - x) <= ulp1 * Rabs x + eta1.
Proof.
  destruct (error_N_FLT radix2 (-1074) 53 eq_refl (fun n => negb (Z.even n)) x) as (e & h & He & Hh & _ & E).
  change (round radix2 (FLT_exp (-1074) 53) ZnearestE x) with (rnd x) in E. rewrite E.
  replace (x * (1 + e) + h - x) with (x * e + h) by ring.
  eapply Rle_trans; [apply Rabs_triang|]. rewrite Rabs_mult.
  assert (E1 : / 2 * bpow radix2 (Z.opp 53 + 1) = ulp1).
  { unfold ulp1. rewrite (bpow_plus radix2 (Z.opp 53) 1); change (Z.opp 53) with (-53)%Z. change (bpow radix2 1) with 2. lra. }
  assert (E2 : / 2 * bpow radix2 (-1074) = eta1).
  { unfold eta1. change (-1074)%Z with (-1075 + 1)%Z. rewrite bpow_plus. change (bpow radix2 1) with 2. lra. }
  rewrite E1 in He. rewrite E2 in Hh.
  pose proof (Rabs_pos x). pose proof (Rmult_le_compat_l (Rabs x) _ _ H He). lra.
Qed.

Lemma rnd_le_format x y : generic_format radix2 fexp64 y -> Rabs x <= y -> Rabs (rnd x) <= y.
Proof. apply abs_round_le_generic; typeclasses eauto. Qed.

(* ------------------------------------------------------------------ *)
(** ** Integers *)

Lemma opp_of_Z z : (0 < z <= 2 ^ 53)%Z -> B2R (f64_of_Z (- z)) = IZR (- z) /\ is_finite (f64_of_Z (- z)) = true /\ Bsign (f64_of_Z (- z)) = true.
Proof.
  intros Hz. unfold f64_of_Z.
  pose proof (binary_normalize_correct 53 1024 _ _ mode_NE (- z) 0 false) as H. cbv zeta in H.
  assert (Hx : F2R (Float radix2 (- z) 0) = IZR (- z)) by (unfold F2R; simpl; lra).
  rewrite Hx in H.
  assert (Hr : round radix2 (SpecFloat.fexp 53 1024) (round_mode mode_NE) (IZR (- z)) = IZR (- z)).
  { apply rnd_format. rewrite opp_IZR. apply generic_format_opp.
    destruct (f64_of_Z_exact z) as (<- & _); [lia|]. apply generic_format_B2R. }
  rewrite Hr in H. rewrite Rlt_bool_true in H.
  - destruct H as (H1 & H2 & H3). repeat split; try assumption.
    rewrite H3. rewrite Rcompare_Lt; [reflexivity|]. apply IZR_lt. lia.
  - rewrite opp_IZR, Rabs_Ropp. destruct (f64_of_Z_exact z) as (<- & _); [lia|]. apply abs_B2R_lt_emax.
Qed.

(** Integers up to 2^53 in absolute value are exact. *)
Lemma of_Z_exact z : (Z.abs z <= 2 ^ 53)%Z ->
  B2R (f64_of_Z z) = IZR z /\ is_finite (f64_of_Z z) = true /\ Bsign (f64_of_Z z) = (z <? 0)%Z.
Proof.
  intros Hz. destruct (Z.ltb_spec z 0) as [Hn|Hn].
  - replace z with (- (- z))%Z by lia. apply opp_of_Z. lia.
  - apply f64_of_Z_exact. lia.
Qed.

Lemma format_Z z : (Z.abs z <= 2 ^ 53)%Z -> generic_format radix2 fexp64 (IZR z).
Proof. intros H. destruct (of_Z_exact z H) as (<- & _). apply generic_format_B2R. Qed.

Lemma Z_lt_emax z : (Z.abs z <= 2 ^ 53)%Z -> Rabs (IZR z) < bpow radix2 1024.
Proof. intros H. destruct (of_Z_exact z H) as (<- & _). apply abs_B2R_lt_emax. Qed.

Lemma plus_Z a b : (Z.abs a <= 2 ^ 53)%Z -> (Z.abs b <= 2 ^ 53)%Z -> (Z.abs (a + b) <= 2 ^ 53)%Z ->
  Bplus mode_NE (f64_of_Z a) (f64_of_Z b) = f64_of_Z (a + b).
Proof.
  intros Ha Hb Hc. destruct (of_Z_exact a Ha) as (A1 & A2 & A3). destruct (of_Z_exact b Hb) as (B1 & B2 & B3).
  destruct (of_Z_exact (a + b) Hc) as (C1 & C2 & C3).
  pose proof (Bplus_correct 53 1024 _ _ mode_NE _ _ A2 B2) as H. cbn [round_mode] in H.
  rewrite A1, B1, <- plus_IZR in H. rewrite (rnd_format _ (format_Z _ Hc)) in H.
  rewrite Rlt_bool_true in H by now apply Z_lt_emax. destruct H as (H1 & H2 & H3).
  apply B2R_Bsign_inj; auto; [now rewrite H1, C1|]. rewrite H3, C3, A3, B3.
  destruct (Rcompare_spec (IZR (a + b)) 0) as [E|E|E].
  - apply lt_IZR in E. symmetry. apply Z.ltb_lt. lia.
  - apply eq_IZR in E. destruct (Z.ltb_spec a 0), (Z.ltb_spec b 0), (Z.ltb_spec (a + b) 0); try reflexivity; lia.
  - apply lt_IZR in E. symmetry. apply Z.ltb_ge. lia.
Qed.

Lemma minus_Z a b : (Z.abs a <= 2 ^ 53)%Z -> (Z.abs b <= 2 ^ 53)%Z -> (Z.abs (a - b) <= 2 ^ 53)%Z ->
  Bminus mode_NE (f64_of_Z a) (f64_of_Z b) = f64_of_Z (a - b).
Proof.
  intros Ha Hb Hc. destruct (of_Z_exact a Ha) as (A1 & A2 & A3). destruct (of_Z_exact b Hb) as (B1 & B2 & B3).
  destruct (of_Z_exact (a - b) Hc) as (C1 & C2 & C3).
  pose proof (Bminus_correct 53 1024 _ _ mode_NE _ _ A2 B2) as H. cbn [round_mode] in H.
  rewrite A1, B1, <- minus_IZR in H. rewrite (rnd_format _ (format_Z _ Hc)) in H.
  rewrite Rlt_bool_true in H by now apply Z_lt_emax. destruct H as (H1 & H2 & H3).
  apply B2R_Bsign_inj; auto; [now rewrite H1, C1|]. rewrite H3, C3, A3, B3.
  destruct (Rcompare_spec (IZR (a - b)) 0) as [E|E|E].
  - apply lt_IZR in E. symmetry. apply Z.ltb_lt. lia.
  - apply eq_IZR in E. destruct (Z.ltb_spec a 0), (Z.ltb_spec b 0), (Z.ltb_spec (a - b) 0); try reflexivity; lia.
  - apply lt_IZR in E. symmetry. apply Z.ltb_ge. lia.
Qed.

Lemma square_Z a : (a * a <= 2 ^ 53)%Z -> Bmult mode_NE (f64_of_Z a) (f64_of_Z a) = f64_of_Z (a * a).
Proof.
  intros Hc. assert (Ha : (Z.abs a <= 2 ^ 53)%Z) by nia. destruct (of_Z_exact a Ha) as (A1 & A2 & A3).
  assert (Hc' : (Z.abs (a * a) <= 2 ^ 53)%Z) by (rewrite Z.abs_eq; nia).
  destruct (of_Z_exact (a * a) Hc') as (C1 & C2 & C3).
  pose proof (Bmult_correct 53 1024 _ _ mode_NE (f64_of_Z a) (f64_of_Z a)) as H. cbn [round_mode] in H.
  rewrite A1, <- mult_IZR in H. rewrite (rnd_format _ (format_Z _ Hc')) in H.
  rewrite Rlt_bool_true in H by now apply Z_lt_emax. destruct H as (H1 & H2 & H3). rewrite A2 in H2. cbn [andb] in H2.
  apply B2R_Bsign_inj; auto; [now rewrite H1, C1|]. rewrite H3, C3.
  - rewrite xorb_nilpotent. symmetry. apply Z.ltb_ge. nia.
  - destruct (Bmult mode_NE (f64_of_Z a) (f64_of_Z a)); auto; discriminate.
Qed.

Lemma div_Z_exact a m : (0 < m)%Z -> (m <= 2 ^ 53)%Z -> (Z.abs (m * a) <= 2 ^ 53)%Z ->
  Bdiv mode_NE (f64_of_Z (m * a)) (f64_of_Z m) = f64_of_Z a.
Proof.
  intros Hm Hm' Hc. assert (Ha : (Z.abs a <= 2 ^ 53)%Z) by nia.
  destruct (of_Z_exact a Ha) as (A1 & A2 & A3). destruct (of_Z_exact (m * a) Hc) as (C1 & C2 & C3).
  destruct (of_Z_exact m) as (M1 & M2 & M3); [lia|].
  assert (Hmr : IZR m <> 0) by (apply not_0_IZR; lia).
  pose proof (Bdiv_correct 53 1024 _ _ mode_NE (f64_of_Z (m * a)) (f64_of_Z m)) as H. cbn [round_mode] in H.
  rewrite C1, M1 in H. specialize (H Hmr). replace (IZR (m * a) / IZR m) with (IZR a) in H by (rewrite mult_IZR; field; auto).
  rewrite (rnd_format _ (format_Z _ Ha)) in H.
  rewrite Rlt_bool_true in H by now apply Z_lt_emax. destruct H as (H1 & H2 & H3). rewrite C2 in H2.
  apply B2R_Bsign_inj; auto; [now rewrite H1, A1|]. rewrite H3, A3, C3, M3.
  - destruct (Z.ltb_spec (m * a) 0), (Z.ltb_spec m 0), (Z.ltb_spec a 0); try reflexivity; nia.
  - destruct (Bdiv mode_NE (f64_of_Z (m * a)) (f64_of_Z m)); auto; discriminate.
Qed.

(* ------------------------------------------------------------------ *)
(** ** The variance of one target *)

(** calculations.rs: variance from the sum [S], the sum of squares [Q] and the count [m]. *)
Definition var64 (S Q m : Z) : f64 :=
  let mu := Bdiv mode_NE (f64_of_Z S) (f64_of_Z m) in
  Bdiv mode_NE (Bminus mode_NE (f64_of_Z Q) (Bmult mode_NE (f64_of_Z m) (Bmult mode_NE mu mu))) (f64_of_Z m).

Lemma step_error x y r b e : Rabs (x - y) <= e -> Rabs x <= b -> r = rnd x -> Rabs (r - y) <= e + ulp1 * b + eta1.
Proof.
  intros H Hb ->. pose proof (rnd_error x) as He. pose proof ulp1_pos as Hu.
  pose proof (Rmult_le_compat_l ulp1 _ _ (Rlt_le _ _ Hu) Hb).
  replace (rnd x - y) with ((rnd x - x) + (x - y)) by ring.
  pose proof (Rabs_triang (rnd x - x) (x - y)). lra.
Qed.

Lemma step_self x r b : Rabs x <= b -> r = rnd x -> Rabs (r - x) <= ulp1 * b + eta1.
Proof.
  intros Hb V. pose proof (step_error x x r b 0) as He. rewrite Rminus_diag_eq, Rabs_R0 in He by reflexivity.
  specialize (He ltac:(lra) Hb V). lra.
Qed.

Lemma var64_error (S Q m M : Z) :
  (0 < m)%Z -> (1 <= M)%Z -> (m * (M * M) <= 2 ^ 53)%Z -> (Z.abs S <= m * M)%Z -> (0 <= Q <= m * (M * M))%Z ->
  is_finite (var64 S Q m) = true /\ Rabs (B2R (var64 S Q m)) <= IZR (M * M) /\
  Rabs (B2R (var64 S Q m) - (IZR Q - IZR m * (IZR S / IZR m * (IZR S / IZR m))) / IZR m) <= 7 * ulp1 * IZR (M * M).
Proof.
  intros Hm HM HB HS HQ.
  assert (HmM : (m * M <= 2 ^ 53)%Z) by nia. assert (HMM : (M * M <= 2 ^ 53)%Z) by nia.
  assert (Hm53 : (m <= 2 ^ 53)%Z) by nia. assert (HM53 : (M <= 2 ^ 53)%Z) by nia.
  destruct (of_Z_exact S) as (S1 & S2 & _); [lia|]. destruct (of_Z_exact m) as (m1 & m2 & _); [lia|].
  destruct (of_Z_exact Q) as (Q1 & Q2 & _); [lia|].
  assert (Hmr : 0 < IZR m) by (apply IZR_lt; lia). assert (Hmr' : IZR m <> 0) by lra.
  assert (HMr : 1 <= IZR M) by (apply IZR_le; lia).
  assert (HSr : Rabs (IZR S) <= IZR m * IZR M) by (rewrite <- abs_IZR, <- mult_IZR; apply IZR_le; lia).
  assert (HQr : 0 <= IZR Q <= IZR m * (IZR M * IZR M)).
  { rewrite <- !mult_IZR. split; apply IZR_le; lia. }
  assert (HMMr : IZR (M * M) = IZR M * IZR M) by apply mult_IZR.
  pose proof ulp1_pos as Hu. pose proof eta1_pos as Hh.
  set (mu := IZR S / IZR m).
  assert (Hmu : Rabs mu <= IZR M).
  { unfold mu, Rdiv. rewrite Rabs_mult, (Rabs_pos_eq (/ IZR m)) by (left; now apply Rinv_0_lt_compat).
    apply Rmult_le_reg_r with (IZR m); auto. rewrite Rmult_assoc, Rinv_l, Rmult_1_r by auto. lra. }
  assert (FM : generic_format radix2 fexp64 (IZR M)) by (apply format_Z; lia).
  assert (FMM : generic_format radix2 fexp64 (IZR M * IZR M)) by (rewrite <- mult_IZR; apply format_Z; lia).
  assert (FmMM : generic_format radix2 fexp64 (IZR m * (IZR M * IZR M))) by (rewrite <- !mult_IZR; apply format_Z; lia).
  assert (EM : IZR M < bpow radix2 1024) by (eapply Rle_lt_trans; [apply Rle_abs|apply Z_lt_emax; lia]).
  assert (EMM : IZR M * IZR M < bpow radix2 1024) by (rewrite <- mult_IZR; eapply Rle_lt_trans; [apply Rle_abs|apply Z_lt_emax; lia]).
  assert (EmMM : IZR m * (IZR M * IZR M) < bpow radix2 1024) by (rewrite <- !mult_IZR; eapply Rle_lt_trans; [apply Rle_abs|apply Z_lt_emax; lia]).
  unfold var64.
  (* mean *)
  destruct (div_value (f64_of_Z S) (f64_of_Z m) S2) as [F1 V1].
  { now rewrite m1. }
  { rewrite S1, m1. eapply Rle_lt_trans; [apply rnd_le_format; [exact FM|exact Hmu]|exact EM]. }
  set (muf := Bdiv mode_NE (f64_of_Z S) (f64_of_Z m)) in *. rewrite S1, m1 in V1. fold mu in V1.
  assert (B1 : Rabs (B2R muf) <= IZR M) by (rewrite V1; now apply rnd_le_format).
  assert (E1 : Rabs (B2R muf - mu) <= ulp1 * IZR M + eta1).
  { pose proof (step_error mu mu (B2R muf) (IZR M) 0) as He. rewrite Rminus_diag_eq, Rabs_R0 in He by reflexivity.
    specialize (He ltac:(lra) Hmu V1). lra. }
  (* its square *)
  set (sq := B2R muf * B2R muf).
  assert (B2 : Rabs sq <= IZR M * IZR M).
  { unfold sq. rewrite Rabs_mult. apply Rmult_le_compat; auto using Rabs_pos. }
  destruct (mult_value muf muf F1 F1) as [F2 V2].
  { eapply Rle_lt_trans; [apply rnd_le_format; [exact FMM|exact B2]|exact EMM]. }
  set (sqf := Bmult mode_NE muf muf) in *. fold sq in V2.
  assert (B2' : Rabs (B2R sqf) <= IZR M * IZR M) by (rewrite V2; now apply rnd_le_format).
  assert (P2 : 0 <= B2R sqf).
  { rewrite V2, <- rnd_0. apply rnd_le. unfold sq. nra. }
  assert (E2 : Rabs (sq - mu * mu) <= 2 * (IZR M * (ulp1 * IZR M + eta1))).
  { unfold sq. replace (B2R muf * B2R muf - mu * mu) with ((B2R muf - mu) * (B2R muf + mu)) by ring. rewrite Rabs_mult.
    pose proof (Rabs_triang (B2R muf) mu) as Ht.
    replace (2 * (IZR M * (ulp1 * IZR M + eta1))) with ((ulp1 * IZR M + eta1) * (2 * IZR M)) by ring.
    apply Rmult_le_compat; auto using Rabs_pos. lra. }
  pose proof (step_error _ _ _ _ _ E2 B2 V2) as E2'.
  (* times the count *)
  destruct (mult_value (f64_of_Z m) sqf m2 F2) as [F3 V3].
  { rewrite m1. eapply Rle_lt_trans; [apply rnd_le_format; [exact FmMM|]|exact EmMM].
    rewrite Rabs_mult, (Rabs_pos_eq (IZR m)) by lra. apply Rmult_le_compat_l; lra. }
  set (pf := Bmult mode_NE (f64_of_Z m) sqf) in *. rewrite m1 in V3.
  assert (B3 : Rabs (IZR m * B2R sqf) <= IZR m * (IZR M * IZR M)).
  { rewrite Rabs_mult, (Rabs_pos_eq (IZR m)) by lra. apply Rmult_le_compat_l; lra. }
  assert (B3' : Rabs (B2R pf) <= IZR m * (IZR M * IZR M)) by (rewrite V3; now apply rnd_le_format).
  assert (P3 : 0 <= B2R pf).
  { rewrite V3, <- rnd_0. apply rnd_le. apply Rmult_le_pos; lra. }
  set (e2 := 2 * (IZR M * (ulp1 * IZR M + eta1)) + ulp1 * (IZR M * IZR M) + eta1) in *.
  assert (E3 : Rabs (IZR m * B2R sqf - IZR m * (mu * mu)) <= IZR m * e2).
  { rewrite <- Rmult_minus_distr_l, Rabs_mult, (Rabs_pos_eq (IZR m)) by lra. apply Rmult_le_compat_l; lra. }
  pose proof (step_error _ _ _ _ _ E3 B3 V3) as E3'.
  (* the numerator *)
  assert (B4 : Rabs (IZR Q - B2R pf) <= IZR m * (IZR M * IZR M)).
  { apply Rabs_le. rewrite Rabs_pos_eq in B3' by auto. lra. }
  destruct (minus_value (f64_of_Z Q) pf Q2 F3) as [F4 V4].
  { rewrite Q1. eapply Rle_lt_trans; [apply rnd_le_format; [exact FmMM|exact B4]|exact EmMM]. }
  set (nf := Bminus mode_NE (f64_of_Z Q) pf) in *. rewrite Q1 in V4.
  assert (B4' : Rabs (B2R nf) <= IZR m * (IZR M * IZR M)) by (rewrite V4; now apply rnd_le_format).
  assert (E4 : Rabs (IZR Q - B2R pf - (IZR Q - IZR m * (mu * mu))) <= IZR m * e2 + ulp1 * (IZR m * (IZR M * IZR M)) + eta1).
  { replace (IZR Q - B2R pf - (IZR Q - IZR m * (mu * mu))) with (- (B2R pf - IZR m * (mu * mu))) by ring. now rewrite Rabs_Ropp. }
  pose proof (step_error _ _ _ _ _ E4 B4 V4) as E4'.
  (* divided by the count *)
  assert (B5 : Rabs (B2R nf / IZR m) <= IZR M * IZR M).
  { unfold Rdiv. rewrite Rabs_mult, (Rabs_pos_eq (/ IZR m)) by (left; now apply Rinv_0_lt_compat).
    apply Rmult_le_reg_r with (IZR m); auto. rewrite Rmult_assoc, Rinv_l, Rmult_1_r by auto. lra. }
  destruct (div_value nf (f64_of_Z m) F4) as [F5 V5].
  { now rewrite m1. }
  { rewrite m1. eapply Rle_lt_trans; [apply rnd_le_format; [exact FMM|exact B5]|exact EMM]. }
  rewrite m1 in V5. split; [exact F5|]. rewrite HMMr. split; [rewrite V5; now apply rnd_le_format|].
  set (num := IZR Q - IZR m * (mu * mu)) in *.
  set (e4 := IZR m * e2 + ulp1 * (IZR m * (IZR M * IZR M)) + eta1 + ulp1 * (IZR m * (IZR M * IZR M)) + eta1) in *.
  assert (E5 : Rabs (B2R nf / IZR m - num / IZR m) <= e4 / IZR m).
  { unfold Rdiv. rewrite <- Rmult_minus_distr_r, Rabs_mult, (Rabs_pos_eq (/ IZR m)) by (left; now apply Rinv_0_lt_compat).
    apply Rmult_le_compat_r; auto. left; now apply Rinv_0_lt_compat. }
  pose proof (step_error _ _ _ _ _ E5 B5 V5) as E5'.
  eapply Rle_trans; [exact E5'|].
  assert (Ee4 : e4 / IZR m <= e2 + 2 * (ulp1 * (IZR M * IZR M)) + 2 * eta1).
  { unfold e4. replace ((IZR m * e2 + ulp1 * (IZR m * (IZR M * IZR M)) + eta1 + ulp1 * (IZR m * (IZR M * IZR M)) + eta1) / IZR m)
      with (e2 + 2 * (ulp1 * (IZR M * IZR M)) + 2 * (eta1 * / IZR m)) by (field; auto).
    assert (/ IZR m <= 1). { rewrite <- Rinv_1. apply Rinv_le_contravar; [lra|]. apply IZR_le. lia. }
    assert (eta1 * / IZR m <= eta1 * 1) by (apply Rmult_le_compat_l; lra). lra. }
  assert (Hsmall : 6 * eta1 + 2 * (IZR M * eta1) <= ulp1 * (IZR M * IZR M)).
  { pose proof eta1_small as Hs. assert (H100 : 8 <= bpow radix2 100) by (change 8 with (bpow radix2 3); apply bpow_le; lia).
    assert (eta1 * 8 <= ulp1) by (eapply Rle_trans; [apply Rmult_le_compat_l; [lra|exact H100]|exact Hs]).
    assert (IZR M <= IZR M * IZR M) by nra.
    assert (eta1 * 8 * (IZR M * IZR M) <= ulp1 * (IZR M * IZR M)) by (apply Rmult_le_compat_r; nra).
    assert (eta1 * 6 <= eta1 * (6 * (IZR M * IZR M))) by (apply Rmult_le_compat_l; nra).
    assert (eta1 * IZR M <= eta1 * (IZR M * IZR M)) by (apply Rmult_le_compat_l; nra). lra. }
  unfold e2 in Ee4. lra.
Qed.

(** Labels that are all [z]: the computed variance is exactly zero. *)
Lemma var64_pure z m : (0 < m)%Z -> (m * (z * z) <= 2 ^ 53)%Z -> (m <= 2 ^ 53)%Z ->
  is_finite (var64 (m * z) (m * (z * z)) m) = true /\ B2R (var64 (m * z) (m * (z * z)) m) = 0.
Proof.
  intros Hm HB Hm'. unfold var64.
  assert (Hz : (z * z <= 2 ^ 53)%Z) by nia. assert (HA : (Z.abs (m * z) <= 2 ^ 53)%Z) by nia.
  rewrite div_Z_exact by auto. rewrite square_Z by auto.
  destruct (of_Z_exact m) as (m1 & m2 & _); [lia|]. destruct (of_Z_exact (z * z)) as (z1 & z2 & _); [nia|].
  assert (HB' : (Z.abs (m * (z * z)) <= 2 ^ 53)%Z) by nia.
  destruct (of_Z_exact (m * (z * z)) HB') as (Q1 & Q2 & _).
  destruct (mult_value (f64_of_Z m) (f64_of_Z (z * z)) m2 z2) as [F1 V1].
  { rewrite m1, z1, <- mult_IZR, (rnd_format _ (format_Z _ HB')). now apply Z_lt_emax. }
  rewrite m1, z1, <- mult_IZR, (rnd_format _ (format_Z _ HB')) in V1.
  destruct (minus_value (f64_of_Z (m * (z * z))) (Bmult mode_NE (f64_of_Z m) (f64_of_Z (z * z))) Q2 F1) as [F2 V2].
  { rewrite Q1, V1, Rminus_diag_eq, rnd_0, Rabs_R0 by reflexivity. apply bpow_gt_0. }
  rewrite Q1, V1, Rminus_diag_eq, rnd_0 in V2 by reflexivity.
  assert (Hmr : IZR m <> 0) by (apply not_0_IZR; lia).
  destruct (div_value (Bminus mode_NE (f64_of_Z (m * (z * z))) (Bmult mode_NE (f64_of_Z m) (f64_of_Z (z * z)))) (f64_of_Z m) F2) as [F3 V3].
  { now rewrite m1. }
  { rewrite V2. unfold Rdiv. rewrite Rmult_0_l, rnd_0, Rabs_R0. apply bpow_gt_0. }
  split; auto. rewrite V3, V2. unfold Rdiv. now rewrite Rmult_0_l, rnd_0.
Qed.

(* ------------------------------------------------------------------ *)
(** ** Weighted variances, sums, gains *)

(** calculations.rs: size-weighted sum of the two variances of one target. *)
Definition loss64 (a b : Z) (v w : f64) : f64 :=
  let total := Bplus mode_NE (f64_of_Z a) (f64_of_Z b) in
  Bplus mode_NE (Bmult mode_NE (Bdiv mode_NE (f64_of_Z a) total) v) (Bmult mode_NE (Bdiv mode_NE (f64_of_Z b) total) w).

Lemma weight_error a n : (0 < a <= n)%Z -> (n <= 2 ^ 53)%Z ->
  let w := Bdiv mode_NE (f64_of_Z a) (f64_of_Z n) in
  is_finite w = true /\ Rabs (B2R w) <= 1 /\ Rabs (B2R w - IZR a / IZR n) <= ulp1 + eta1.
Proof.
  intros Ha Hn w. destruct (of_Z_exact a) as (A1 & A2 & _); [lia|]. destruct (of_Z_exact n) as (N1 & N2 & _); [lia|].
  assert (Hnr : 0 < IZR n) by (apply IZR_lt; lia). assert (Har : 0 < IZR a <= IZR n) by (split; [apply IZR_lt|apply IZR_le]; lia).
  assert (Hw : Rabs (IZR a / IZR n) <= 1).
  { unfold Rdiv. rewrite Rabs_pos_eq by (apply Rmult_le_pos; [lra|left; now apply Rinv_0_lt_compat]).
    apply Rmult_le_reg_r with (IZR n); auto. rewrite Rmult_assoc, Rinv_l, Rmult_1_r by lra. lra. }
  destruct (div_value (f64_of_Z a) (f64_of_Z n) A2) as [F V].
  { rewrite N1. lra. }
  { rewrite A1, N1. eapply Rle_lt_trans; [apply rnd_le_format; [exact format_one|exact Hw]|exact one_lt_emax]. }
  rewrite A1, N1 in V. fold w in F, V. split; auto. split; [rewrite V; apply rnd_le_format; [exact format_one|exact Hw]|].
  pose proof (step_error (IZR a / IZR n) (IZR a / IZR n) (B2R w) 1 0) as He.
  rewrite Rminus_diag_eq, Rabs_R0 in He by reflexivity. specialize (He ltac:(lra) Hw V). lra.
Qed.

Lemma prod_error (w v : f64) W V B c :
  is_finite w = true -> is_finite v = true -> Rabs (B2R w) <= 1 -> Rabs (B2R v) <= B -> 0 <= W <= 1 ->
  generic_format radix2 fexp64 B -> B < bpow radix2 1024 ->
  Rabs (B2R w - W) <= ulp1 + eta1 -> Rabs (B2R v - V) <= c ->
  let r := Bmult mode_NE w v in
  is_finite r = true /\ Rabs (B2R r) <= B /\ Rabs (B2R r - W * V) <= (ulp1 + eta1) * B + W * c + ulp1 * B + eta1.
Proof.
  intros Fw Fv Bw Bv HW FB EB Ew Ev r.
  assert (Bp : Rabs (B2R w * B2R v) <= B).
  { rewrite Rabs_mult. replace B with (1 * B) by ring. apply Rmult_le_compat; auto using Rabs_pos. }
  destruct (mult_value w v Fw Fv) as [F Vr].
  { eapply Rle_lt_trans; [apply rnd_le_format; [exact FB|exact Bp]|exact EB]. }
  fold r in F, Vr. split; auto. split; [rewrite Vr; now apply rnd_le_format|].
  apply (step_error _ _ _ _ _) with (2 := Bp) (3 := Vr).
  replace (B2R w * B2R v - W * V) with ((B2R w - W) * B2R v + W * (B2R v - V)) by ring.
  eapply Rle_trans; [apply Rabs_triang|]. rewrite !Rabs_mult, (Rabs_pos_eq W) by lra.
  pose proof ulp1_pos. pose proof eta1_pos.
  apply Rplus_le_compat; apply Rmult_le_compat; auto using Rabs_pos; lra.
Qed.

Lemma loss64_error a b v w V W B :
  (0 < a)%Z -> (0 < b)%Z -> (a + b <= 2 ^ 53)%Z ->
  is_finite v = true -> is_finite w = true -> 1 <= B ->
  generic_format radix2 fexp64 B -> B < bpow radix2 1000 ->
  Rabs (B2R v) <= B -> Rabs (B2R w) <= B -> Rabs (B2R v - V) <= 7 * ulp1 * B -> Rabs (B2R w - W) <= 7 * ulp1 * B ->
  is_finite (loss64 a b v w) = true /\ Rabs (B2R (loss64 a b v w)) <= 3 * B /\
  Rabs (B2R (loss64 a b v w) - (IZR a / IZR (a + b) * V + IZR b / IZR (a + b) * W)) <= 14 * ulp1 * B.
Proof.
  intros Ha Hb Hn Fv Fw HB FB EB Bv Bw Ev Ew. unfold loss64. rewrite plus_Z by lia.
  assert (EB' : B < bpow radix2 1024) by (eapply Rlt_trans; [exact EB|apply bpow_lt; lia]).
  destruct (weight_error a (a + b)) as (Fa & Ba & Ea); [lia|lia|]. destruct (weight_error b (a + b)) as (Fb & Bb & Eb); [lia|lia|].
  assert (Hnr : 0 < IZR (a + b)) by (apply IZR_lt; lia).
  assert (Har : 0 < IZR a) by (apply IZR_lt; lia). assert (Hbr : 0 < IZR b) by (apply IZR_lt; lia).
  assert (Hsum : IZR a / IZR (a + b) + IZR b / IZR (a + b) = 1) by (rewrite plus_IZR in *; field; lra).
  assert (Pa : 0 <= IZR a / IZR (a + b)) by (apply Rmult_le_pos; [lra|left; now apply Rinv_0_lt_compat]).
  assert (Pb : 0 <= IZR b / IZR (a + b)) by (apply Rmult_le_pos; [lra|left; now apply Rinv_0_lt_compat]).
  assert (Qa : IZR a / IZR (a + b) <= 1) by lra. assert (Qb : IZR b / IZR (a + b) <= 1) by lra.
  destruct (prod_error _ v (IZR a / IZR (a + b)) V B (7 * ulp1 * B) Fa Fv Ba Bv (conj Pa Qa) FB EB' Ea Ev) as (F1 & B1 & E1).
  destruct (prod_error _ w (IZR b / IZR (a + b)) W B (7 * ulp1 * B) Fb Fw Bb Bw (conj Pb Qb) FB EB' Eb Ew) as (F2 & B2 & E2).
  set (p := Bmult mode_NE (Bdiv mode_NE (f64_of_Z a) (f64_of_Z (a + b))) v) in *.
  set (q := Bmult mode_NE (Bdiv mode_NE (f64_of_Z b) (f64_of_Z (a + b))) w) in *.
  pose proof ulp1_pos as Hu. pose proof eta1_pos as Hh. pose proof ulp1_small as Hus.
  pose proof eta1_small as Hs. assert (H100 : 100 <= bpow radix2 100).
  { apply Rle_trans with (bpow radix2 7); [|apply bpow_le; lia]. change (bpow radix2 7) with 128. lra. }
  assert (Hs' : eta1 * 100 <= ulp1) by (eapply Rle_trans; [apply Rmult_le_compat_l; [lra|exact H100]|exact Hs]).
  assert (Bs : Rabs (B2R p + B2R q) <= 2 * B) by (eapply Rle_trans; [apply Rabs_triang|lra]).
  assert (HuB : ulp1 * B * 1000000 <= B).
  { replace (ulp1 * B * 1000000) with (ulp1 * 1000000 * B) by ring. rewrite <- (Rmult_1_l B) at 2. apply Rmult_le_compat_r; lra. }
  assert (HuB1 : ulp1 <= ulp1 * B) by (rewrite <- (Rmult_1_r ulp1) at 1; apply Rmult_le_compat_l; lra).
  assert (HhB : 100 * (eta1 * B) <= ulp1 * B).
  { replace (100 * (eta1 * B)) with (eta1 * 100 * B) by ring. apply Rmult_le_compat_r; lra. }
  assert (Br : Rabs (rnd (B2R p + B2R q)) <= 3 * B).
  { pose proof (rnd_error (B2R p + B2R q)) as He. 
    pose proof (Rmult_le_compat_l ulp1 _ _ (Rlt_le _ _ Hu) Bs).
    replace (rnd (B2R p + B2R q)) with ((rnd (B2R p + B2R q) - (B2R p + B2R q)) + (B2R p + B2R q)) by ring.
    eapply Rle_trans; [apply Rabs_triang|]. lra. }
  assert (E3B : 3 * B < bpow radix2 1024).
  { apply Rlt_trans with (bpow radix2 2 * bpow radix2 1000); [|rewrite <- bpow_plus; apply bpow_lt; lia].
    change (bpow radix2 2) with 4. pose proof (bpow_gt_0 radix2 1000). lra. }
  destruct (plus_value p q F1 F2) as [F3 V3]; [lra|]. split; auto. split; [now rewrite V3|].
  assert (E3 : Rabs (B2R p + B2R q - (IZR a / IZR (a + b) * V + IZR b / IZR (a + b) * W)) <=
     (ulp1 + eta1) * B + IZR a / IZR (a + b) * (7 * ulp1 * B) + ulp1 * B + eta1 +
     ((ulp1 + eta1) * B + IZR b / IZR (a + b) * (7 * ulp1 * B) + ulp1 * B + eta1)).
  { replace (B2R p + B2R q - (IZR a / IZR (a + b) * V + IZR b / IZR (a + b) * W))
      with ((B2R p - IZR a / IZR (a + b) * V) + (B2R q - IZR b / IZR (a + b) * W)) by ring.
    eapply Rle_trans; [apply Rabs_triang|]. apply Rplus_le_compat; [exact E1|exact E2]. }
  eapply Rle_trans; [exact (step_error _ _ _ _ _ E3 Bs V3)|].
  replace ((ulp1 + eta1) * B + IZR a / IZR (a + b) * (7 * ulp1 * B) + ulp1 * B + eta1 +
     ((ulp1 + eta1) * B + IZR b / IZR (a + b) * (7 * ulp1 * B) + ulp1 * B + eta1) + ulp1 * (2 * B) + eta1)
    with ((IZR a / IZR (a + b) + IZR b / IZR (a + b)) * (7 * ulp1 * B) + 6 * (ulp1 * B) + 2 * (eta1 * B) + 3 * eta1) by ring.
  rewrite Hsum. lra.
Qed.

Definition Rsum' (l : list f64) : R := fold_right (fun x s => B2R x + s) 0 l.

Lemma sum64_error (C : R) (l : list f64) : forall (a : f64) (j : nat),
  1 <= C -> C < bpow radix2 900 -> is_finite a = true -> Rabs (B2R a) <= 2 * INR j * C ->
  (Z.of_nat (j + length l) <= 2 ^ 40)%Z ->
  Forall (fun x => is_finite x = true /\ Rabs (B2R x) <= C) l ->
  let r := fold_left (Bplus mode_NE) l a in
  is_finite r = true /\ Rabs (B2R r) <= 2 * INR (j + length l) * C /\
  Rabs (B2R r - (B2R a + Rsum' l)) <=
    ulp1 * C * (INR (j + length l) * INR (j + length l) - INR j * INR j) + INR (length l) * eta1.
Proof.
  induction l as [|x l IH]; intros a j HC HC' Fa Ba Hk Hl; cbn [fold_left length Rsum' fold_right].
  - rewrite Nat.add_0_r. split; auto. split; auto. cbn [INR].
    rewrite !Rplus_0_r, Rminus_diag_eq, Rabs_R0 by reflexivity. lra.
  - inversion Hl as [|? ? [Fx Bx] Hl']; subst. cbn [length] in Hk.
    pose proof ulp1_pos as Hu. pose proof eta1_pos as Hh.
    assert (Hj : INR j <= bpow radix2 40).
    { rewrite INR_IZR_INZ. rewrite <- (IZR_Zpower radix2 40) by lia. apply IZR_le. change (Zpower radix2 40) with (2 ^ 40)%Z. lia. }
    pose proof (pos_INR j) as Hj0.
    assert (Bs : Rabs (B2R a + B2R x) <= (2 * INR j + 1) * C) by (eapply Rle_trans; [apply Rabs_triang|lra]).
    assert (Hje : ulp1 * ((2 * INR j + 1) * C) + eta1 <= C).
    { assert (H1 : ulp1 * bpow radix2 40 <= / 8).
      { unfold ulp1. rewrite <- bpow_plus. apply Rle_trans with (bpow radix2 (-3)); [apply bpow_le; lia|]. change (bpow radix2 (-3)) with (/ 8). lra. }
      assert (H2 : ulp1 * INR j <= / 8) by (eapply Rle_trans; [apply Rmult_le_compat_l; [lra|exact Hj]|exact H1]).
      pose proof ulp1_small as Hus. pose proof eta1_small as Hs.
      assert (H100 : 1 <= bpow radix2 100) by (change 1 with (bpow radix2 0); apply bpow_le; lia).
      assert (eta1 <= ulp1).
      { eapply Rle_trans; [|exact Hs]. rewrite <- (Rmult_1_r eta1) at 1. apply Rmult_le_compat_l; lra. }
      assert (ulp1 * (2 * INR j + 1) * C <= / 2 * C) by (apply Rmult_le_compat_r; lra).
      replace (ulp1 * ((2 * INR j + 1) * C)) with (ulp1 * (2 * INR j + 1) * C) by ring. lra. }
    assert (Br : Rabs (rnd (B2R a + B2R x)) <= 2 * INR (S j) * C).
    { pose proof (rnd_error (B2R a + B2R x)) as He.
      pose proof (Rmult_le_compat_l ulp1 _ _ (Rlt_le _ _ Hu) Bs).
      replace (rnd (B2R a + B2R x)) with ((rnd (B2R a + B2R x) - (B2R a + B2R x)) + (B2R a + B2R x)) by ring.
      eapply Rle_trans; [apply Rabs_triang|]. rewrite S_INR. lra. }
    destruct (plus_value a x Fa Fx) as [F1 V1].
    { eapply Rle_lt_trans; [exact Br|].
      apply Rle_lt_trans with (bpow radix2 42 * bpow radix2 900); [|rewrite <- bpow_plus; apply bpow_lt; lia].
      apply Rmult_le_compat; try lra. { rewrite S_INR. lra. }
      change (bpow radix2 42) with (4 * bpow radix2 40) at 1 || (replace (bpow radix2 42) with (4 * bpow radix2 40) by (change 4 with (bpow radix2 2); rewrite <- bpow_plus; reflexivity)).
      assert (1 <= bpow radix2 40) by (change 1 with (bpow radix2 0); apply bpow_le; lia). rewrite S_INR. lra. }
    destruct (IH (Bplus mode_NE a x) (S j) HC HC' F1) as (F2 & B2 & E2).
    { now rewrite V1. }
    { lia. }
    { exact Hl'. }
    replace (j + S (length l))%nat with (S j + length l)%nat by lia. split; auto. split; auto.
    set (r := fold_left (Bplus mode_NE) l (Bplus mode_NE a x)) in *.
    assert (E1 : Rabs (B2R (Bplus mode_NE a x) - (B2R a + B2R x)) <= ulp1 * ((2 * INR j + 1) * C) + eta1).
    { exact (step_self _ _ _ Bs V1). }
    fold (Rsum' l).
    replace (B2R r - (B2R a + (B2R x + Rsum' l))) with ((B2R r - (B2R (Bplus mode_NE a x) + Rsum' l)) + (B2R (Bplus mode_NE a x) - (B2R a + B2R x))) by ring.
    eapply Rle_trans; [apply Rabs_triang|].
    rewrite (S_INR (length l)).
    replace (ulp1 * C * (INR (S j + length l) * INR (S j + length l) - INR j * INR j) + (INR (length l) + 1) * eta1)
      with ((ulp1 * C * (INR (S j + length l) * INR (S j + length l) - INR (S j) * INR (S j)) + INR (length l) * eta1)
        + (ulp1 * ((2 * INR j + 1) * C) + eta1)) by (rewrite (S_INR j); ring).
    lra.
Qed.
