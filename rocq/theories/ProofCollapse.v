(** The arithmetic behind a two-row run whose scores turn into NaN in the second boosting iteration. *)
From Coq Require Import Reals Lra Lia ZArith.
From Flocq Require Import Core Relative.
From Flocq Require Import IEEE754.BinarySingleNaN.
From Verif Require Import Base Num F64 SpecExact SpecPredict ProofReal ProofRound ProofError ProofPredict ProofClassF64 ProofSoftmax ProofLeafFloat Decide Demo.
Local Open Scope R_scope.

Notation b2 := (bpow radix2).

Lemma format_mult m e : (Z.abs m <= 2 ^ 53)%Z -> (-1074 <= e)%Z -> generic_format radix2 fexp64 (IZR m * b2 e).
Proof.
  intros Hm He. destruct (Z.eq_dec (Z.abs m) (2 ^ 53)) as [E|N].
  - assert (Em : (m = 2 ^ 53 \/ m = - 2 ^ 53)%Z) by lia.
    assert (H : generic_format radix2 fexp64 (IZR (2 ^ 53) * b2 e)).
    { change (IZR (2 ^ 53)) with (b2 53). rewrite <- bpow_plus. apply ProofScoreF64.format_pow. lia. }
    destruct Em as [-> | ->]; [exact H|]. rewrite opp_IZR, <- Ropp_mult_distr_l. now apply generic_format_opp.
  - apply generic_format_FLT. exists (Float radix2 m e); [reflexivity| |]; cbn; lia.
Qed.

(** A float of at least [2^(e+52)] is a multiple of [2^e]. *)
Lemma float_multiple (x : f64) e : b2 (e + 52) <= Rabs (B2R x) -> exists m, B2R x = IZR m * b2 e.
Proof.
  intros H. destruct x as [s|s| |s mx ex Hb]; try (cbn in H; rewrite Rabs_R0 in H; pose proof (bpow_gt_0 radix2 (e + 52)); lra).
  assert (He : (e <= ex)%Z).
  { destruct (Z_lt_le_dec ex e) as [L|]; [exfalso|auto].
    assert (Hm : (Z.pos mx < 2 ^ 53)%Z).
    { pose proof Hb as Hc. unfold SpecFloat.bounded in Hc. apply andb_true_iff in Hc as [Hc _]. unfold SpecFloat.canonical_mantissa in Hc. apply Zeq_bool_eq in Hc.
      unfold SpecFloat.fexp, SpecFloat.emin in Hc. rewrite Digits.Zpos_digits2_pos in Hc.
      assert (Hd : (Digits.Zdigits radix2 (Z.pos mx) <= 53)%Z) by lia.
      apply Z.lt_le_trans with (radix2 ^ Digits.Zdigits radix2 (Z.pos mx))%Z; [apply (Digits.Zdigits_correct radix2 (Z.pos mx))|].
      apply (Z.pow_le_mono_r 2); lia. }
    cbn in H. unfold F2R in H. cbn [Fnum Fexp] in H. rewrite Rabs_mult, (Rabs_pos_eq (bpow radix2 ex)) in H by apply bpow_ge_0.
    assert (Ha : Rabs (IZR (SpecFloat.cond_Zopp s (Z.pos mx))) = IZR (Z.pos mx)).
    { rewrite <- abs_IZR. f_equal. destruct s; reflexivity. }
    rewrite Ha in H. assert (IZR (Z.pos mx) < IZR (2 ^ 53)) by (now apply IZR_lt). change (IZR (2 ^ 53)) with (b2 53) in *.
    assert (b2 (e + 52) < b2 (e + 52)); [|lra]. eapply Rle_lt_trans; [exact H|].
    apply Rlt_le_trans with (b2 53 * b2 ex); [apply Rmult_lt_compat_r; [apply bpow_gt_0|assumption]|].
    rewrite <- bpow_plus. apply bpow_le. lia. }
  exists (SpecFloat.cond_Zopp s (Z.pos mx) * 2 ^ (ex - e))%Z. cbn. unfold F2R. cbn [Fnum Fexp].
  rewrite mult_IZR, Rmult_assoc. f_equal. change (2 ^ (ex - e))%Z with (Zpower radix2 (ex - e)). rewrite IZR_Zpower by lia. rewrite <- bpow_plus. f_equal. lia.
Qed.

(** A value that exceeds a format number by less than half a unit in the last place rounds to it. *)
Lemma rnd_down u v : generic_format radix2 fexp64 u -> 0 < u -> u <= v -> v - u < / 2 * ulp radix2 fexp64 u -> rnd v = u.
Proof.
  intros Fu Pu H1 H2. apply Rle_antisym.
  - apply round_N_le_midp; [typeclasses eauto|exact Fu|]. rewrite succ_eq_pos by lra. lra.
  - rewrite <- (rnd_format u Fu) at 1. now apply rnd_le.
Qed.

Lemma ulp_normal u e : b2 e <= u < b2 (e + 1) -> (-1022 <= e)%Z -> ulp radix2 fexp64 u = b2 (e - 52).
Proof.
  intros H He. pose proof (bpow_gt_0 radix2 e). rewrite ulp_neq_0 by lra. f_equal. unfold cexp.
  assert (M : mag radix2 u = (e + 1)%Z :> Z) by (apply mag_unique_pos; replace (e + 1 - 1)%Z with e by lia; exact H).
  rewrite M. unfold SpecFloat.fexp, SpecFloat.emin. lia.
Qed.

Lemma just_below_one v : 1 - b2 (-54) < v <= 1 -> rnd v = 1.
Proof.
  intros [H1 H2]. apply Rle_antisym.
  - rewrite <- rnd_1. now apply rnd_le.
  - apply round_N_ge_midp; [typeclasses eauto|exact ProofScoreF64.format_one|].
    assert (E : pred radix2 fexp64 1 = 1 - b2 (-53)) by (change 1 with (b2 0) at 1; rewrite pred_bpow; reflexivity).
    rewrite E. change (-53)%Z with (-54 + 1)%Z. rewrite bpow_two. lra.
Qed.

(* ------------------------------------------------------------------ *)
(** ** The learning rate *)

Lemma ln2_bounds : 32 < 60 * ln 2 < 60.
Proof.
  assert (H1 : 8 < 15 * ln 2).
  { assert (E : 15 * ln 2 = ln (2 ^ 15)) by (rewrite ln_pow by lra; f_equal; rewrite INR_IZR_INZ; reflexivity).
    rewrite E, <- (ln_exp 8). apply ln_increasing; [apply exp_pos|].
    assert (E8 : exp 8 = exp 1 ^ 8) by (replace 8 with (1 + 1 + 1 + 1 + 1 + 1 + 1 + 1) by lra; rewrite !exp_plus; ring).
    rewrite E8. apply Rle_lt_trans with (3 ^ 8); [apply pow_incr; split; [left; apply exp_pos|exact exp_le_3]|lra]. }
  assert (H2 : ln 2 < 1).
  { rewrite <- (ln_exp 1). apply ln_increasing; [lra|]. pose proof (exp_ineq1 1 ltac:(lra)). lra. }
  lra.
Qed.

Definition top_value : R := 60 * ln 2 + b2 (-31).
Definition top : f64 := nearest top_value.
Definition half : f64 := Bdiv mode_NE Bone (f64_of_Z 2).
Definition rate : f64 := Bminus mode_NE top half.
Definition bottom : f64 := Bminus mode_NE Bone top.

Lemma half_value : is_finite half = true /\ B2R half = / 2.
Proof.
  assert (E : half = binary_normalize 53 1024 _ _ mode_NE 1 (-1) false) by compute_eq.
  split; [vm_compute; reflexivity|]. rewrite E.
  pose proof (binary_normalize_correct 53 1024 _ _ mode_NE 1 (-1) false) as C. cbn [round_mode] in C.
  assert (Ef : F2R (Float radix2 1 (-1)) = b2 (-1)) by (unfold F2R; cbn; lra).
  rewrite Ef in C. change (round radix2 (SpecFloat.fexp 53 1024) ZnearestE (b2 (-1))) with (rnd (b2 (-1))) in C.
  rewrite (rnd_format (b2 (-1))) in C by (apply ProofScoreF64.format_pow; lia).
  rewrite Rlt_bool_true in C; [apply C|]. rewrite Rabs_pos_eq by apply bpow_ge_0. apply bpow_lt. lia.
Qed.

Lemma top_facts : is_finite top = true /\ 32 <= B2R top <= 61 /\ Rabs (B2R top - top_value) <= b2 (-47) /\
  exists m, B2R top = IZR m * b2 (-47).
Proof.
  pose proof ln2_bounds as HL. assert (H31 : 0 < b2 (-31) < / 2).
  { split; [apply bpow_gt_0|]. change (/ 2) with (b2 (-1)). apply bpow_lt. lia. }
  assert (HT : 32 < top_value < 60 + / 2) by (unfold top_value; lra).
  destruct (nearest_value top_value) as [F V].
  { eapply pow_le_emax with (e := 6%Z); [lia| |lia]. rewrite Rabs_pos_eq by lra. change (b2 6) with 64. lra. }
  fold top in F, V. assert (H32 : 32 <= rnd top_value).
  { rewrite <- (rnd_format 32) by (change 32 with (b2 5); apply ProofScoreF64.format_pow; lia). apply rnd_le. lra. }
  assert (H61 : rnd top_value <= 61).
  { rewrite <- (rnd_format 61) by (apply (format_Z 61); lia). apply rnd_le. lra. }
  split; [exact F|]. split; [rewrite V; auto|]. split.
  - rewrite V. pose proof (error_le_half_ulp radix2 fexp64 (fun x => negb (Z.even x)) top_value) as He.
    change (round radix2 fexp64 (Znearest (fun x => negb (Z.even x))) top_value) with (rnd top_value) in He.
    rewrite (ulp_normal top_value 5) in He; [|change (b2 (5 + 1)) with 64; change (b2 5) with 32; lra|lia].
    change (5 - 52)%Z with (-47)%Z in He. pose proof (bpow_gt_0 radix2 (-47)). lra.
  - apply float_multiple. change (-47 + 52)%Z with 5%Z. change (b2 5) with 32. rewrite V, Rabs_pos_eq; lra.
Qed.

Lemma half_multiple : / 2 = IZR (2 ^ 46) * b2 (-47).
Proof. change (IZR (2 ^ 46)) with (b2 46). rewrite <- bpow_plus. reflexivity. Qed.

Lemma small_multiple m : Rabs (IZR m * b2 (-47)) <= 64 -> generic_format radix2 fexp64 (IZR m * b2 (-47)).
Proof.
  intros H. apply format_mult; [|lia]. apply le_IZR. rewrite abs_IZR.
  rewrite Rabs_mult, (Rabs_pos_eq (b2 (-47))) in H by apply bpow_ge_0.
  apply Rmult_le_reg_r with (b2 (-47)); [apply bpow_gt_0|]. eapply Rle_trans; [exact H|].
  change (IZR (2 ^ 53)) with (b2 53). rewrite <- bpow_plus. change (b2 (53 + -47)) with 64. lra.
Qed.

Lemma small_emax x : Rabs x <= 64 -> Rabs (rnd x) < b2 1024.
Proof. intros H. eapply pow_le_emax with (e := 6%Z); [lia|exact H|lia]. Qed.

Lemma rate_facts : is_finite rate = true /\ B2R rate = B2R top - / 2.
Proof.
  destruct top_facts as (F & H & _ & m & Em). destruct half_value as [Fh Vh].
  assert (HA : Rabs (B2R top - / 2) <= 64) by (rewrite Rabs_pos_eq; lra).
  destruct (minus_value top half F Fh) as [Fr Vr]; [rewrite Vh; now apply small_emax|].
  split; [exact Fr|]. unfold rate. rewrite Vr, Vh. apply rnd_format.
  rewrite Em, half_multiple, <- Rmult_minus_distr_r, <- minus_IZR. apply small_multiple.
  rewrite minus_IZR, Rmult_minus_distr_r, <- Em, <- half_multiple. exact HA.
Qed.

Lemma one_multiple : 1 = IZR (2 ^ 47) * b2 (-47).
Proof. change (IZR (2 ^ 47)) with (b2 47). rewrite <- bpow_plus. reflexivity. Qed.

Lemma bottom_facts : is_finite bottom = true /\ B2R bottom = 1 - B2R top.
Proof.
  destruct top_facts as (F & H & _ & m & Em).
  assert (HA : Rabs (1 - B2R top) <= 64) by (apply Rabs_le; lra).
  destruct (minus_value Bone top eq_refl F) as [Fr Vr]; [rewrite Bone_1; now apply small_emax|].
  split; [exact Fr|]. unfold bottom. rewrite Vr, Bone_1. apply rnd_format.
  rewrite Em, one_multiple, <- Rmult_minus_distr_r, <- minus_IZR. apply small_multiple.
  rewrite minus_IZR, Rmult_minus_distr_r, <- Em, <- one_multiple. exact HA.
Qed.

Lemma float_eq (x y : f64) : is_finite x = true -> is_finite y = true -> B2R x = B2R y -> B2R x <> 0 -> x = y.
Proof.
  intros Fx Fy E N. apply B2R_inj; auto.
  - destruct x; try discriminate; try reflexivity. now contradiction N.
  - destruct y; try discriminate; try reflexivity. rewrite E in N. now contradiction N.
Qed.

(** The two scores after the first iteration. *)
Lemma score_up : Bplus mode_NE half (Bmult mode_NE rate Bone) = top.
Proof.
  destruct top_facts as (F & H & _). destruct half_value as [Fh Vh]. destruct rate_facts as [Fr Vr].
  destruct (mult_value rate Bone Fr eq_refl) as [F1 V1].
  { rewrite Bone_1, Rmult_1_r. apply small_emax. rewrite Rabs_pos_eq; lra. }
  rewrite Bone_1, Rmult_1_r, rnd_B2R in V1.
  destruct (plus_value half (Bmult mode_NE rate Bone) Fh F1) as [F2 V2].
  { rewrite V1, Vh. apply small_emax. rewrite Rabs_pos_eq; lra. }
  assert (E : B2R (Bplus mode_NE half (Bmult mode_NE rate Bone)) = B2R top).
  { rewrite V2, V1, Vh, Vr. replace (/ 2 + (B2R top - / 2)) with (B2R top) by ring. apply rnd_B2R. }
  apply float_eq; auto. rewrite E. lra.
Qed.

Lemma score_down : Bplus mode_NE half (Bmult mode_NE rate (Bopp Bone)) = bottom.
Proof.
  destruct top_facts as (F & H & _). destruct half_value as [Fh Vh]. destruct rate_facts as [Fr Vr]. destruct bottom_facts as [Fb Vb].
  assert (Vo : B2R (Bopp Bone : f64) = -1) by (rewrite B2R_Bopp, Bone_1; reflexivity).
  destruct (mult_value rate (Bopp Bone) Fr eq_refl) as [F1 V1].
  { rewrite Vo. apply small_emax. apply Rabs_le. lra. }
  rewrite Vo in V1. replace (B2R rate * -1) with (- B2R rate) in V1 by ring.
  rewrite (rnd_format (- B2R rate)) in V1 by (apply generic_format_opp, generic_format_B2R).
  destruct (plus_value half (Bmult mode_NE rate (Bopp Bone)) Fh F1) as [F2 V2].
  { rewrite V1, Vh. apply small_emax. apply Rabs_le. lra. }
  assert (E : B2R (Bplus mode_NE half (Bmult mode_NE rate (Bopp Bone))) = B2R bottom).
  { rewrite V2, V1, Vh, Vr. replace (/ 2 + - (B2R top - / 2)) with (B2R bottom) by (rewrite Vb; lra). apply rnd_B2R. }
  apply float_eq; auto. rewrite E, Vb. lra.
Qed.

(* ------------------------------------------------------------------ *)
(** ** The first iteration *)

Definition near_half : f64 := Bpred half.

Section Exp.
Context {P : platform} (Hexp : accurate_exp P).

Definition total64 (l : list f64) : f64 := fold_left (Bplus mode_NE) (map (p_exp P) l) (B754_zero (p_sum_from_negative_zero P)).
Definition prob64 (l : list f64) (x : f64) : f64 := Bmult mode_NE (p_exp P x) (Bdiv mode_NE Bone (total64 l)).

Lemma zero_plus (b : bool) (x : f64) : is_finite x = true -> B2R x <> 0 -> Bplus mode_NE (B754_zero b) x = x.
Proof. intros Fx N. destruct x; try discriminate; [now contradiction N|reflexivity]. Qed.

Lemma first_probability : prob64 [half; half] half = half \/ prob64 [half; half] half = near_half.
Proof.
  destruct half_value as [Fh Vh]. destruct (Hexp half Fh) as [Fe Ee]; [rewrite Vh, Rabs_pos_eq; lra|].
  rewrite Vh in Ee. set (e := p_exp P half) in *.
  assert (He1 : 1 < exp (/ 2) <= 3).
  { split; [pose proof (exp_ineq1 (/ 2) ltac:(lra)); lra|]. apply Rle_trans with (exp 1); [left; apply exp_increasing; lra|exact exp_le_3]. }
  assert (Hb : 0 < b2 (-52) < / 100).
  { split; [apply bpow_gt_0|]. apply Rlt_trans with (b2 (-7)); [apply bpow_lt; lia|]. change (b2 (-7)) with (/ 128). lra. }
  assert (Hbe : b2 (-52) * exp (/ 2) <= / 100 * 3) by (apply Rmult_le_compat; lra).
  apply Rabs_le_inv in Ee. assert (HE : / 2 < B2R e < 4) by lra.
  assert (Et : total64 [half; half] = Bplus mode_NE e e).
  { unfold total64. cbn [map fold_left]. fold e. rewrite zero_plus; auto. lra. }
  assert (F2 : generic_format radix2 fexp64 (2 * B2R e)).
  { destruct (float_multiple e (-53)) as (m & Em); [change (-53 + 52)%Z with (-1)%Z; change (b2 (-1)) with (/ 2); rewrite Rabs_pos_eq; lra|].
    pose proof (generic_format_B2R 53 1024 e) as G. 
    replace (2 * B2R e) with (B2R e * b2 1) by (change (b2 1) with 2; ring).
    apply generic_format_FLT. apply FLT_format_generic in G; [|reflexivity]. destruct G as [[gm ge] G1 G2 G3]. cbn in G2, G3.
    exists (Float radix2 gm (ge + 1)); [|exact G2|cbn; lia]. rewrite G1. unfold F2R. cbn [Fnum Fexp]. rewrite bpow_plus. ring. }
  destruct (plus_value e e Fe Fe) as [Fs Vs].
  { apply small_emax. rewrite Rabs_pos_eq; lra. }
  replace (B2R e + B2R e) with (2 * B2R e) in Vs by ring. rewrite (rnd_format _ F2) in Vs.
  set (s := Bplus mode_NE e e) in *.
  assert (Hs1 : b2 (-1022) <= B2R s <= b2 1022).
  { rewrite Vs. split; [apply Rle_trans with (b2 0); [apply bpow_le; lia|change (b2 0) with 1; lra]|apply Rle_trans with (b2 3); [change (b2 3) with 8; lra|apply bpow_le; lia]]. }
  set (z := 1 / B2R s). assert (Hz : / 8 < z < 1).
  { unfold z. rewrite Vs. unfold Rdiv. rewrite Rmult_1_l. split; [apply Rinv_lt_contravar; [apply Rmult_lt_0_compat|]; lra|].
    rewrite <- Rinv_1. apply Rinv_lt_contravar; lra. }
  destruct (div_value Bone s) as [Fr Vr]; [reflexivity|rewrite Vs; lra|rewrite Bone_1; fold z; apply small_emax; rewrite Rabs_pos_eq; lra|].
  rewrite Bone_1 in Vr. fold z in Vr. set (r := Bdiv mode_NE Bone s) in *.
  pose proof (relative_error_N_FLT radix2 (-1074) 53 eq_refl (fun x => negb (Z.even x)) z) as RE.
  rewrite (Rabs_pos_eq z) in RE by lra.
  assert (Hzn : b2 (-1074 + 53 - 1) <= z) by (apply Rle_trans with (b2 (-3)); [apply bpow_le; lia|change (b2 (-3)) with (/ 8); lra]).
  specialize (RE Hzn). change (round radix2 (FLT_exp (-1074) 53) ZnearestE z) with (rnd z) in RE. rewrite <- Vr in RE.
  assert (Eu : / 2 * b2 (- (53) + 1) = b2 (-53)) by (change (/ 2) with (b2 (-1)); rewrite <- bpow_plus; reflexivity).
  rewrite Eu in RE. apply Rabs_le_inv in RE.
  assert (Eez : B2R e * z = / 2) by (unfold z; rewrite Vs; field; lra).
  assert (Hu54 : b2 (-53) = 2 * b2 (-54)) by (change (-53)%Z with (-54 + 1)%Z; apply bpow_two).
  assert (Hp : / 2 - b2 (-54) <= B2R e * B2R r <= / 2 + b2 (-54)).
  { split.
    - apply Rle_trans with (B2R e * (z - b2 (-53) * z)); [|apply Rmult_le_compat_l; lra].
      right. replace (B2R e * (z - b2 (-53) * z)) with (B2R e * z * (1 - b2 (-53))) by ring. rewrite Eez, Hu54. field.
    - apply Rle_trans with (B2R e * (z + b2 (-53) * z)); [apply Rmult_le_compat_l; lra|].
      right. replace (B2R e * (z + b2 (-53) * z)) with (B2R e * z * (1 + b2 (-53))) by ring. rewrite Eez, Hu54. field. }
  assert (H54 : 0 < b2 (-54) < / 100).
  { split; [apply bpow_gt_0|]. apply Rlt_trans with (b2 (-7)); [apply bpow_lt; lia|]. change (b2 (-7)) with (/ 128). lra. }
  destruct (mult_value e r Fe Fr) as [Fp Vp].
  { apply small_emax. rewrite Rabs_pos_eq; lra. }
  assert (Ep : prob64 [half; half] half = Bmult mode_NE e r) by (unfold prob64; rewrite Et; reflexivity).
  rewrite Ep. set (p := Bmult mode_NE e r) in *.
  (* upper bound: rounding to even *)
  assert (Hup : rnd (/ 2 + b2 (-54)) = / 2).
  { assert (E : Bplus mode_NE half (binary_normalize 53 1024 _ _ mode_NE 1 (-54) false) = half) by compute_eq.
    destruct (plus_finite half (binary_normalize 53 1024 _ _ mode_NE 1 (-54) false)) as (_ & _ & V); [now rewrite E|].
    rewrite E, Vh in V. replace (B2R (binary_normalize 53 1024 _ _ mode_NE 1 (-54) false)) with (b2 (-54)) in V; [now symmetry|].
    pose proof (binary_normalize_correct 53 1024 _ _ mode_NE 1 (-54) false) as C. cbn [round_mode] in C.
    assert (Ef : F2R (Float radix2 1 (-54)) = b2 (-54)) by (unfold F2R; cbn; lra).
    rewrite Ef in C. change (round radix2 (SpecFloat.fexp 53 1024) ZnearestE (b2 (-54))) with (rnd (b2 (-54))) in C.
    rewrite (rnd_format (b2 (-54))) in C by (apply ProofScoreF64.format_pow; lia).
    rewrite Rlt_bool_true in C; [symmetry; apply C|]. rewrite Rabs_pos_eq by apply bpow_ge_0. apply bpow_lt. lia. }
  assert (Hpred : pred radix2 fexp64 (/ 2) = / 2 - b2 (-54)) by (change (/ 2) with (b2 (-1)) at 1; rewrite pred_bpow; reflexivity).
  assert (Fhalf : generic_format radix2 fexp64 (/ 2)) by (change (/ 2) with (b2 (-1)); apply ProofScoreF64.format_pow; lia).
  assert (Hp2 : B2R p <= / 2) by (rewrite Vp, <- Hup; apply rnd_le; lra).
  assert (Fpred : generic_format radix2 fexp64 (/ 2 - b2 (-54))) by (rewrite <- Hpred; apply generic_format_pred; [typeclasses eauto|exact Fhalf]).
  assert (Hp1 : / 2 - b2 (-54) <= B2R p) by (rewrite Vp, <- (rnd_format _ Fpred); apply rnd_le; lra).
  assert (Vn : is_finite near_half = true /\ B2R near_half = / 2 - b2 (-54)).
  { split; [vm_compute; reflexivity|]. assert (E : near_half = Bminus mode_NE half (binary_normalize 53 1024 _ _ mode_NE 1 (-54) false)) by compute_eq.
    assert (Vq : is_finite (binary_normalize 53 1024 _ _ mode_NE 1 (-54) false) = true /\ B2R (binary_normalize 53 1024 _ _ mode_NE 1 (-54) false) = b2 (-54)).
    { pose proof (binary_normalize_correct 53 1024 _ _ mode_NE 1 (-54) false) as C. cbn [round_mode] in C.
      assert (Ef : F2R (Float radix2 1 (-54)) = b2 (-54)) by (unfold F2R; cbn; lra).
      rewrite Ef in C. change (round radix2 (SpecFloat.fexp 53 1024) ZnearestE (b2 (-54))) with (rnd (b2 (-54))) in C.
      rewrite (rnd_format (b2 (-54))) in C by (apply ProofScoreF64.format_pow; lia).
      rewrite Rlt_bool_true in C; [tauto|]. rewrite Rabs_pos_eq by apply bpow_ge_0. apply bpow_lt. lia. }
    destruct Vq as [Fq Vq]. rewrite E. destruct (minus_value half _ Fh Fq) as [_ Vm]; [rewrite Vh, Vq; apply small_emax; rewrite Rabs_pos_eq; lra|].
    rewrite Vm, Vh, Vq. now apply rnd_format. }
  destruct Vn as [Fn Vn].
  destruct (Req_dec (B2R p) (/ 2)) as [E|N].
  - left. apply float_eq; auto; [rewrite E; auto|lra].
  - right. apply float_eq; auto; [|lra]. rewrite Vn. apply Rle_antisym; [|exact Hp1].
    rewrite <- Hpred. apply pred_ge_gt; [typeclasses eauto|apply generic_format_B2R|exact Fhalf|lra].
Qed.

(* ------------------------------------------------------------------ *)
(** ** The second iteration *)

Lemma exp_top : is_finite (p_exp P top) = true /\ exists m, B2R (p_exp P top) = b2 60 * (1 + IZR m * b2 (-52)) /\ 0 <= IZR m * b2 (-52) <= b2 (-29).
Proof.
  destruct top_facts as (F & H & Ht & _). destruct (Hexp top F) as [Fe Ee]; [rewrite Rabs_pos_eq; lra|].
  split; [exact Fe|]. set (E := B2R (p_exp P top)) in *. apply Rabs_le_inv in Ht.
  set (dl := B2R top - 60 * ln 2).
  assert (H47 : 0 < b2 (-47)) by apply bpow_gt_0. assert (H52 : 0 < b2 (-52)) by apply bpow_gt_0.
  assert (E31 : b2 (-31) = 65536 * b2 (-47)) by (change 65536 with (b2 16); rewrite <- bpow_plus; reflexivity).
  assert (E47 : b2 (-47) = 32 * b2 (-52)) by (change 32 with (b2 5); rewrite <- bpow_plus; reflexivity).
  assert (E29 : b2 (-29) = 262144 * b2 (-47)) by (change 262144 with (b2 18); rewrite <- bpow_plus; reflexivity).
  assert (S52 : b2 (-52) * 1000000000 <= 1).
  { apply Rle_trans with (b2 (-52) * b2 52); [apply Rmult_le_compat_l; [lra|]|rewrite <- bpow_plus; change (b2 (-52 + 52)) with 1; lra].
    apply Rle_trans with (b2 30); [change (b2 30) with 1073741824; lra|apply bpow_le; lia]. }
  assert (Hdl : 65535 * b2 (-47) <= dl <= 65537 * b2 (-47)) by (unfold dl, top_value in *; lra).
  assert (Eexp : exp (B2R top) = b2 60 * exp dl).
  { replace (B2R top) with (60 * ln 2 + dl) by (unfold dl; ring). rewrite exp_plus. f_equal.
    replace (60 * ln 2) with (ln (2 ^ 60)) by (rewrite ln_pow by lra; f_equal; rewrite INR_IZR_INZ; reflexivity).
    rewrite exp_ln by (apply pow_lt; lra). change (b2 60) with (IZR (2 ^ 60)). rewrite pow_IZR. reflexivity. }
  assert (Hd1 : 1 + dl <= exp dl) by (destruct (Req_dec dl 0) as [->|N]; [rewrite exp_0; lra|left; now apply exp_ineq1]).
  assert (Hd2 : exp dl <= 1 + 2 * dl).
  { assert (Hm : 1 - dl <= exp (- dl)) by (destruct (Req_dec dl 0) as [->|N]; [rewrite Ropp_0, exp_0; lra|left; replace (1 - dl) with (1 + - dl) by ring; apply exp_ineq1; lra]).
    rewrite <- (Ropp_involutive dl) at 1. rewrite exp_Ropp. apply Rle_trans with (/ (1 - dl)); [apply Rinv_le; lra|].
    apply Rmult_le_reg_r with (1 - dl); [lra|]. rewrite Rinv_l by lra.
    replace ((1 + 2 * dl) * (1 - dl)) with (1 + dl * (1 - 2 * dl)) by ring. assert (0 <= dl * (1 - 2 * dl)) by (apply Rmult_le_pos; lra). lra. }
  rewrite Eexp in Ee. apply Rabs_le_inv in Ee. pose proof (bpow_gt_0 radix2 60) as P60.
  set (w := E * b2 (-60)). assert (Ew : E = b2 60 * w).
  { unfold w. rewrite (Rmult_comm E), <- Rmult_assoc, <- bpow_plus. change (b2 (60 + -60)) with 1. ring. }
  assert (Hw : exp dl - b2 (-52) * exp dl <= w <= exp dl + b2 (-52) * exp dl).
  { rewrite Ew in Ee. split; apply Rmult_le_reg_l with (b2 60); auto; lra. }
  assert (Hx2 : b2 (-52) * exp dl <= b2 (-52) * 2) by (apply Rmult_le_compat_l; lra).
  assert (Hw2 : 1 <= w <= 1 + b2 (-29)) by lra.
  destruct (float_multiple (p_exp P top) 8) as (m & Em).
  { change (8 + 52)%Z with 60%Z. fold E. rewrite Rabs_pos_eq; rewrite Ew; [|apply Rmult_le_pos; lra].
    rewrite <- (Rmult_1_r (b2 60)) at 1. apply Rmult_le_compat_l; lra. }
  fold E in Em. assert (Ew' : w = IZR m * b2 (-52)) by (unfold w; rewrite Em, Rmult_assoc, <- bpow_plus; reflexivity).
  exists (m - 2 ^ 52)%Z. assert (Eb : IZR (m - 2 ^ 52) * b2 (-52) = w - 1).
  { rewrite minus_IZR, Ew', Rmult_minus_distr_r. f_equal. change (IZR (2 ^ 52)) with (b2 52). rewrite <- bpow_plus. reflexivity. }
  rewrite Eb. split; [rewrite Ew; f_equal; ring|lra].
Qed.

Lemma exp_bottom : is_finite (p_exp P bottom) = true /\ b2 (-122) <= B2R (p_exp P bottom) <= 1.
Proof.
  destruct top_facts as (F & H & _). destruct bottom_facts as [Fb Vb].
  destruct (Hexp bottom Fb) as [Fe Ee]; [rewrite Vb; apply Rabs_le; lra|]. split; [exact Fe|]. rewrite Vb in Ee. apply Rabs_le_inv in Ee.
  set (x := 1 - B2R top) in *. assert (Hx : -60 <= x <= -31) by (unfold x; lra).
  assert (H52 : 0 < b2 (-52) < / 4) by (split; [apply bpow_gt_0|change (/ 4) with (b2 (-2)); apply bpow_lt; lia]).
  assert (H1 : exp x <= / 2).
  { replace x with (- (- x)) by ring. rewrite exp_Ropp. apply Rinv_le; [lra|]. pose proof (exp_ineq1 (- x) ltac:(lra)). lra. }
  assert (H2 : b2 (-120) <= exp x).
  { replace x with (- (- x)) by ring. rewrite exp_Ropp. change (-120)%Z with (- (120))%Z. rewrite bpow_opp. apply Rinv_le; [apply exp_pos|].
    apply Rle_trans with (exp (INR 60)).
    - assert (E60 : INR 60 = 60) by (rewrite INR_IZR_INZ; reflexivity). rewrite E60. destruct (Req_dec (- x) 60) as [->|N]; [lra|left; apply exp_increasing; lra].
    - clear. assert (G : forall n, exp (INR n) <= b2 (2 * Z.of_nat n)).
      { induction n as [|n IH]; [cbn; rewrite exp_0; lra|]. rewrite S_INR, exp_plus.
        replace (2 * Z.of_nat (S n))%Z with (2 * Z.of_nat n + 2)%Z by lia. rewrite bpow_plus. pose proof exp_le_3.
        apply Rmult_le_compat; try (left; apply exp_pos); [exact IH|]. change (b2 2) with 4. lra. }
      exact (G 60%nat). }
  assert (H3 : b2 (-52) * exp x <= / 4 * exp x) by (apply Rmult_le_compat_r; [left; apply exp_pos|lra]).
  assert (E120 : b2 (-120) = 4 * b2 (-122)) by (change (-120)%Z with (-122 + 1 + 1)%Z; rewrite !bpow_two; ring).
  pose proof (bpow_gt_0 radix2 (-122)). lra.
Qed.

(** One large and one tiny exponential add up to the large one. *)
Lemma absorbed (a b : f64) : is_finite a = true -> is_finite b = true -> b2 60 <= B2R a <= b2 60 * 2 - 1 -> 0 <= B2R b <= 1 ->
  Bplus mode_NE a b = a /\ Bplus mode_NE b a = a.
Proof.
  intros Fa Fb Ha Hb. pose proof (bpow_gt_0 radix2 60) as P60.
  assert (HR : rnd (B2R a + B2R b) = B2R a).
  { apply rnd_down; [apply generic_format_B2R|lra|lra|].
    rewrite (ulp_normal (B2R a) 60); [|split; [tauto|rewrite bpow_two; lra]|lia]. change (b2 (60 - 52)) with 256. lra. }
  assert (HE : Rabs (rnd (B2R a + B2R b)) < b2 1024).
  { rewrite HR, Rabs_pos_eq by lra. apply Rle_lt_trans with (b2 61); [change 61%Z with (60 + 1)%Z; rewrite bpow_two; lra|apply bpow_lt; lia]. }
  split.
  - destruct (plus_value a b Fa Fb HE) as [F1 V1]. apply float_eq; auto; rewrite V1, HR; lra.
  - rewrite Rplus_comm in HE. destruct (plus_value b a Fb Fa HE) as [F1 V1]. rewrite Rplus_comm in V1. apply float_eq; auto; rewrite V1, HR; lra.
Qed.

Lemma exp_top_range : b2 60 <= B2R (p_exp P top) <= b2 60 * 2 - 1.
Proof.
  destruct exp_top as (_ & m & E & H). pose proof (bpow_gt_0 radix2 60) as P60. set (ep := IZR m * b2 (-52)) in *.
  assert (b2 (-29) <= / 2) by (change (/ 2) with (b2 (-1)); apply bpow_le; lia).
  assert (Hle : 0 <= b2 60 * ep <= b2 60 * / 2) by (split; [apply Rmult_le_pos; lra|apply Rmult_le_compat_l; lra]).
  assert (2 <= b2 60) by (change 2 with (b2 1); apply bpow_le; lia). rewrite E. lra.
Qed.

Lemma totals : total64 [top; bottom] = p_exp P top /\ total64 [bottom; top] = p_exp P top.
Proof.
  destruct exp_top as (Ft & _). pose proof exp_top_range as Ht. destruct exp_bottom as [Fb Hb]. pose proof (bpow_gt_0 radix2 60). pose proof (bpow_gt_0 radix2 (-122)).
  assert (2 <= b2 60) by (change 2 with (b2 1); apply bpow_le; lia).
  destruct (absorbed (p_exp P top) (p_exp P bottom) Ft Fb Ht ltac:(lra)) as [A1 A2].
  unfold total64. cbn [map fold_left]. rewrite !zero_plus; auto; lra.
Qed.

Lemma inverse_top : is_finite (Bdiv mode_NE Bone (p_exp P top)) = true /\
  exists ep, B2R (p_exp P top) = b2 60 * (1 + ep) /\ B2R (Bdiv mode_NE Bone (p_exp P top)) = b2 (-60) * (1 - ep) /\ 0 <= ep <= b2 (-29).
Proof.
  destruct exp_top as (Ft & m & E & H). set (ep := IZR m * b2 (-52)) in *.
  assert (H29 : 0 < b2 (-29) <= / 4) by (split; [apply bpow_gt_0|change (/ 4) with (b2 (-2)); apply bpow_le; lia]).
  pose proof (bpow_gt_0 radix2 60) as P60. pose proof (bpow_gt_0 radix2 (-60)) as M60.
  assert (E60 : b2 60 * b2 (-60) = 1) by (rewrite <- bpow_plus; reflexivity).
  set (z := 1 / B2R (p_exp P top)).
  assert (Ez : z = b2 (-60) * / (1 + ep)).
  { unfold z. rewrite E. apply Rmult_eq_reg_l with (b2 60); [|lra]. rewrite <- Rmult_assoc, E60. field. split; lra. }
  set (u := b2 (-60) * (1 - ep)).
  assert (Hgap : / (1 + ep) - (1 - ep) = ep * ep * / (1 + ep)) by (field; lra).
  assert (Hi : 0 < / (1 + ep) <= 1) by (split; [apply Rinv_0_lt_compat; lra|rewrite <- Rinv_1; apply Rinv_le; lra]).
  assert (Hee : 0 <= ep * ep <= b2 (-58)).
  { split; [apply Rmult_le_pos; lra|]. replace (b2 (-58)) with (b2 (-29) * b2 (-29)) by (rewrite <- bpow_plus; reflexivity). apply Rmult_le_compat; lra. }
  assert (Hg : 0 <= / (1 + ep) - (1 - ep) <= b2 (-58)).
  { rewrite Hgap. split; [apply Rmult_le_pos; lra|]. apply Rle_trans with (ep * ep * 1); [apply Rmult_le_compat_l; lra|lra]. }
  assert (Hzu : 0 <= z - u <= b2 (-118)).
  { rewrite Ez. unfold u. replace (b2 (-60) * / (1 + ep) - b2 (-60) * (1 - ep)) with (b2 (-60) * (/ (1 + ep) - (1 - ep))) by ring.
    split; [apply Rmult_le_pos; lra|]. replace (b2 (-118)) with (b2 (-60) * b2 (-58)) by (rewrite <- bpow_plus; reflexivity). apply Rmult_le_compat_l; lra. }
  assert (Eu : u = IZR (2 ^ 52 - m) * b2 (-112)).
  { unfold u, ep. replace (b2 (-112)) with (b2 (-60) * b2 (-52)) by (rewrite <- bpow_plus; reflexivity).
    rewrite minus_IZR. assert (E1 : IZR (2 ^ 52) * b2 (-52) = 1) by (change (IZR (2 ^ 52)) with (b2 52); rewrite <- bpow_plus; reflexivity).
    rewrite <- E1 at 1. ring. }
  assert (Hm : (0 <= m <= 2 ^ 52)%Z).
  { split; apply le_IZR; apply Rmult_le_reg_r with (b2 (-52)); try apply bpow_gt_0.
    - rewrite Rmult_0_l. apply H.
    - change (IZR (2 ^ 52)) with (b2 52). rewrite <- bpow_plus. change (b2 (52 + -52)) with 1. fold ep. lra. }
  assert (Fu : generic_format radix2 fexp64 u) by (rewrite Eu; apply format_mult; lia).
  assert (Hu0 : 3 / 4 * b2 (-60) <= u <= b2 (-60)).
  { unfold u. split.
    - rewrite Rmult_comm. apply Rmult_le_compat_l; lra.
    - rewrite <- (Rmult_1_r (b2 (-60))) at 2. apply Rmult_le_compat_l; lra. }
  assert (Hulp : b2 (-113) <= ulp radix2 fexp64 u).
  { destruct (Req_dec u (b2 (-60))) as [->|N].
    - rewrite (ulp_normal _ (-60)); [apply bpow_le; lia|split; [lra|apply bpow_lt; lia]|lia].
    - rewrite (ulp_normal _ (-61)); [apply bpow_le; lia| |lia]. change (-61 + 1)%Z with (-60)%Z.
      assert (b2 (-60) = 2 * b2 (-61)) by (change (-60)%Z with (-61 + 1)%Z; apply bpow_two). lra. }
  assert (H118 : b2 (-113) = 32 * b2 (-118)) by (change 32 with (b2 5); rewrite <- bpow_plus; reflexivity).
  pose proof (bpow_gt_0 radix2 (-118)).
  assert (Hr : rnd z = u) by (apply rnd_down; [exact Fu|lra|lra|lra]).
  destruct (div_value Bone (p_exp P top) eq_refl) as [Fd Vd].
  { rewrite E. apply Rmult_integral_contrapositive_currified; lra. }
  { rewrite Bone_1. fold z. rewrite Hr, Rabs_pos_eq by lra. apply Rle_lt_trans with (b2 (-60)); [lra|apply bpow_lt; lia]. }
  rewrite Bone_1 in Vd. fold z in Vd. rewrite Hr in Vd. split; [exact Fd|]. exists ep. auto.
Qed.

Lemma sure : prob64 [top; bottom] top = Bone /\ prob64 [bottom; top] top = Bone.
Proof.
  destruct totals as [T1 T2]. unfold prob64. rewrite T1, T2. split.
  all: destruct exp_top as (Ft & _); destruct inverse_top as (Fi & ep & E & V & H).
  all: assert (Hv : B2R (p_exp P top) * B2R (Bdiv mode_NE Bone (p_exp P top)) = 1 - ep * ep) by
    (rewrite E, V; replace (b2 60 * (1 + ep) * (b2 (-60) * (1 - ep))) with (b2 60 * b2 (-60) * (1 - ep * ep)) by ring;
     rewrite <- bpow_plus; change (b2 (60 + -60)) with 1; ring).
  all: assert (Hee : 0 <= ep * ep <= b2 (-58)) by
    (split; [apply Rmult_le_pos; lra|]; replace (b2 (-58)) with (b2 (-29) * b2 (-29)) by (rewrite <- bpow_plus; reflexivity); apply Rmult_le_compat; lra).
  all: assert (H54 : b2 (-58) < b2 (-54)) by (apply bpow_lt; lia).
  all: assert (HR : rnd (1 - ep * ep) = 1) by (apply just_below_one; lra).
  all: destruct (mult_value (p_exp P top) (Bdiv mode_NE Bone (p_exp P top)) Ft Fi) as [Fm Vm];
    [rewrite Hv, HR, Rabs_R1; exact one_lt_emax|].
  all: rewrite Hv, HR in Vm; apply float_eq; auto; [rewrite Vm; symmetry; exact Bone_1|lra].
Qed.

Definition tiny : f64 := prob64 [top; bottom] bottom.

Lemma tiny_facts : prob64 [bottom; top] bottom = tiny /\ is_finite tiny = true /\ b2 (-190) <= B2R tiny <= b2 (-59).
Proof.
  unfold tiny, prob64. destruct totals as [T1 T2]. rewrite T1, T2. split; [reflexivity|].
  destruct inverse_top as (Fi & ep & E & V & H). destruct exp_bottom as [Fb Hb].
  assert (H29 : 0 < b2 (-29) <= / 4) by (split; [apply bpow_gt_0|change (/ 4) with (b2 (-2)); apply bpow_le; lia]).
  pose proof (bpow_gt_0 radix2 (-60)) as M60. pose proof (bpow_gt_0 radix2 (-122)) as M122.
  set (v := B2R (p_exp P bottom) * B2R (Bdiv mode_NE Bone (p_exp P top))).
  assert (Hv : b2 (-190) <= v <= b2 (-59)).
  { unfold v. rewrite V. split.
    - apply Rle_trans with (b2 (-122) * b2 (-62)); [rewrite <- bpow_plus; apply bpow_le; lia|].
      apply Rmult_le_compat; try apply bpow_ge_0; [tauto|].
      assert (b2 (-60) = 4 * b2 (-62)) by (change (-60)%Z with (-62 + 1 + 1)%Z; rewrite !bpow_two; ring).
      apply Rle_trans with (b2 (-60) * / 4); [lra|apply Rmult_le_compat_l; lra].
    - apply Rle_trans with (1 * (b2 (-60) * 1)); [apply Rmult_le_compat; [lra|apply Rmult_le_pos; lra|lra|apply Rmult_le_compat_l; lra]|].
      rewrite Rmult_1_l, Rmult_1_r. apply bpow_le. lia. }
  assert (R1 : b2 (-190) <= rnd v) by (rewrite <- (rnd_format (b2 (-190))) by (apply ProofScoreF64.format_pow; lia); apply rnd_le; lra).
  assert (R2 : rnd v <= b2 (-59)) by (rewrite <- (rnd_format (b2 (-59))) by (apply ProofScoreF64.format_pow; lia); apply rnd_le; lra).
  pose proof (bpow_gt_0 radix2 (-190)).
  destruct (mult_value (p_exp P bottom) (Bdiv mode_NE Bone (p_exp P top)) Fb Fi) as [Fm Vm].
  { fold v. rewrite Rabs_pos_eq by lra. apply Rle_lt_trans with (1 := R2). apply bpow_lt. lia. }
  fold v in Vm. split; [exact Fm|]. rewrite Vm. auto.
Qed.

End Exp.
