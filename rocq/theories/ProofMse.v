(** Rounding errors of the mean squared error in binary64. *)
From Coq Require Import Reals Lra Lia ZArith.
From Flocq Require Import Core Relative.
From Flocq Require Import IEEE754.BinarySingleNaN.
From Verif Require Import Base Num F64 ModelCommon ModelTree ModelBoost Lib Spec SpecTree SpecExact SpecScore SpecFit SpecError SpecPredict
  ProofReal ProofRound ProofError ProofBoost ProofBoost2 ProofData ProofTree ProofTree3 ProofTreeExact ProofScore ProofScore3 ProofScoreExact ProofPredict.
Local Open Scope R_scope.

(** Adding up terms with a relative and an absolute error; the relative errors do not accumulate. *)
Section Sum.
Variables (delta S h : R).
Hypotheses (Hc : 0 <= delta <= / 1000) (HS : 0 <= S <= bpow radix2 1000) (Hh : eta1 <= h <= bpow radix2 900).

Let unit := 3 * ulp1 * S + 3 * h.

Lemma accumulate_relative (terms : list (f64 * R)) : forall (s : f64) (E A : R) (k : nat),
  is_finite s = true -> Rabs (B2R s - E) <= delta * A + INR k * unit -> Rabs E <= A ->
  A + Rsum (map (fun p => Rabs (snd p)) terms) <= S ->
  (Z.of_nat (k + length terms) <= 2 ^ 40)%Z ->
  Forall (fun p => is_finite (fst p) = true /\ Rabs (B2R (fst p) - snd p) <= delta * Rabs (snd p) + h) terms ->
  let r := fold_left (fun s p => Bplus mode_NE s (fst p)) terms s in
  is_finite r = true /\
  Rabs (B2R r - (E + Rsum (map snd terms))) <= delta * (A + Rsum (map (fun p => Rabs (snd p)) terms)) + INR (k + length terms) * unit.
Proof.
  pose proof ulp1_pos as Hu. pose proof ulp1_small as Hu'. pose proof eta1_pos as Hn.
  induction terms as [|[t x] terms IH]; intros s E A k Fs He HEA HE Hk Ht; cbn [fold_left map length fst snd].
  - rewrite Nat.add_0_r. cbn [Rsum fold_right]. rewrite !Rplus_0_r. auto.
  - inversion Ht as [|? ? [Ft Hx] Ht']; subst. cbn [fst snd] in Ft, Hx. cbn [map snd] in HE. rewrite Rsum_cons in HE.
    assert (Hr : 0 <= Rsum (map (fun p : f64 * R => Rabs (snd p)) terms)).
    { apply Rsum_nonneg. intros y Hy. apply in_map_iff in Hy as (p & <- & _). apply Rabs_pos. }
    cbn [length] in Hk. assert (Hk' : ulp1 * INR k <= / 8192) by (apply count_small; lia).
    pose proof (Rabs_pos x) as Px. pose proof (Rabs_pos E) as PE.
    assert (HuS : 0 <= ulp1 * S) by (apply Rmult_le_pos; lra).
    assert (HdA : 0 <= delta * A) by (apply Rmult_le_pos; lra).
    assert (Hdx : 0 <= delta * Rabs x) by (apply Rmult_le_pos; lra).
    assert (HdS : delta * A + delta * Rabs x <= / 1000 * S).
    { rewrite <- Rmult_plus_distr_l. apply Rle_trans with (delta * S); [apply Rmult_le_compat_l; lra|apply Rmult_le_compat_r; lra]. }
    assert (HU0 : 0 <= unit) by (unfold unit; lra).
    assert (HeU : ulp1 * (INR k * unit) <= / 8192 * unit) by (rewrite <- Rmult_assoc; apply Rmult_le_compat_r; lra).
    assert (Hk1 : INR k * unit <= bpow radix2 40 * unit).
    { apply Rmult_le_compat_r; [exact HU0|]. rewrite INR_IZR_INZ, <- (IZR_Zpower radix2 40) by lia. apply IZR_le. change (Zpower radix2 40) with (2 ^ 40)%Z. lia. }
    assert (Hd : Rabs (B2R s + B2R t - (E + x)) <= delta * A + INR k * unit + (delta * Rabs x + h)).
    { replace (B2R s + B2R t - (E + x)) with ((B2R s - E) + (B2R t - x)) by ring.
      eapply Rle_trans; [apply Rabs_triang|]. lra. }
    assert (HEx : Rabs (E + x) <= S) by (eapply Rle_trans; [apply Rabs_triang|]; lra).
    assert (Hst : Rabs (B2R s + B2R t) <= S + / 1000 * S + INR k * unit + h).
    { replace (B2R s + B2R t) with ((B2R s + B2R t - (E + x)) + (E + x)) by ring.
      eapply Rle_trans; [apply Rabs_triang|]. lra. }
    assert (Hb : Rabs (B2R s + B2R t) <= bpow radix2 1002).
    { assert (B2 : bpow radix2 1002 = 4 * bpow radix2 1000).
      { change 1002%Z with (1000 + 1 + 1)%Z. rewrite !bpow_two. ring. }
      rewrite B2.
      assert (P40 : bpow radix2 40 * (ulp1 * S) <= / 8192 * bpow radix2 1000).
      { rewrite <- Rmult_assoc. apply Rle_trans with (bpow radix2 40 * ulp1 * bpow radix2 1000).
        - apply Rmult_le_compat_l; [apply Rmult_le_pos; [apply bpow_ge_0|lra]|lra].
        - apply Rmult_le_compat_r; [apply bpow_ge_0|]. unfold ulp1. rewrite <- bpow_plus.
          change (40 + -53)%Z with (-13)%Z. change (bpow radix2 (-13)) with (/ 8192). lra. }
      assert (Ph : bpow radix2 40 * h <= / 8192 * bpow radix2 1000).
      { apply Rle_trans with (bpow radix2 40 * bpow radix2 900); [apply Rmult_le_compat_l; [apply bpow_ge_0|lra]|].
        change (/ 8192) with (bpow radix2 (-13)). rewrite <- !bpow_plus. apply bpow_le. lia. }
      assert (Ph' : h <= / 8192 * bpow radix2 1000).
      { apply Rle_trans with (bpow radix2 900); [lra|].
        change (/ 8192) with (bpow radix2 (-13)). rewrite <- !bpow_plus. apply bpow_le. lia. }
      assert (PU : bpow radix2 40 * unit = 3 * (bpow radix2 40 * (ulp1 * S)) + 3 * (bpow radix2 40 * h)) by (unfold unit; ring).
      pose proof (bpow_gt_0 radix2 1000). lra. }
    destruct (plus_value s t Fs Ft) as [Fp Vp]; [eapply pow_le_emax; [|exact Hb|]; lia|].
    replace (k + Datatypes.S (length terms))%nat with (Datatypes.S k + length terms)%nat in * by lia.
    rewrite !Rsum_cons. rewrite <- !Rplus_assoc. apply IH; auto.
    + rewrite Vp, S_INR. pose proof (rnd_error (B2R s + B2R t)) as Hre.
      replace (rnd (B2R s + B2R t) - (E + x)) with ((rnd (B2R s + B2R t) - (B2R s + B2R t)) + (B2R s + B2R t - (E + x))) by ring.
      eapply Rle_trans; [apply Rabs_triang|].
      assert (Hl : ulp1 * Rabs (B2R s + B2R t) <= ulp1 * S + / 1000 * (ulp1 * S) + / 8192 * unit + ulp1 * h).
      { eapply Rle_trans; [apply Rmult_le_compat_l; [lra|exact Hst]|]. lra. }
      assert (Hqh : ulp1 * h <= / 1000 * h) by (apply Rmult_le_compat_r; lra).
      rewrite Rmult_plus_distr_l. unfold unit in *. lra.
    + eapply Rle_trans; [apply Rabs_triang|]. lra.
    + lra.
Qed.
End Sum.

(** Division of a sum by the number of terms. *)
Lemma divide_error (s : f64) (n : nat) (Q delta H : R) :
  is_finite s = true -> (1 <= n)%nat -> (Z.of_nat n <= 2 ^ 40)%Z -> 0 <= delta <= / 100 -> 0 <= Q <= bpow radix2 1000 -> 0 <= H <= bpow radix2 900 ->
  Rabs (B2R s - Q) <= delta * Q + INR n * H ->
  let r := Bdiv mode_NE s (f64_of_Z (Z.of_nat n)) in
  is_finite r = true /\ Rabs (B2R r - Q / INR n) <= (delta + 2 * ulp1) * (Q / INR n) + 2 * H + eta1.
Proof.
  intros Fs Hn Hn' Hd HQ HH HE r. pose proof ulp1_pos as Hu. pose proof ulp1_small as Hu'. pose proof eta1_pos as He.
  assert (H1 : 1 <= INR n) by (apply (le_INR 1); exact Hn).
  destruct (of_Z_exact (Z.of_nat n)) as (V & Fk & _); [lia|]. rewrite <- INR_IZR_INZ in V.
  assert (Hin : 0 < / INR n <= 1) by (split; [apply Rinv_0_lt_compat; lra|rewrite <- Rinv_1; apply Rinv_le; lra]).
  set (q := Q / INR n).
  assert (Hq : 0 <= q <= Q).
  { unfold q, Rdiv. split; [apply Rmult_le_pos; lra|]. rewrite <- (Rmult_1_r Q) at 2. apply Rmult_le_compat_l; lra. }
  assert (H2 : Rabs (B2R s / INR n - q) <= delta * q + H).
  { replace (B2R s / INR n - q) with ((B2R s - Q) * / INR n) by (unfold q; field; lra).
    rewrite Rabs_mult, (Rabs_pos_eq (/ INR n)) by lra.
    eapply Rle_trans; [apply Rmult_le_compat_r; [lra|exact HE]|]. right. unfold q. field. lra. }
  assert (Hdq : 0 <= delta * q <= / 100 * q) by (split; [apply Rmult_le_pos; lra|apply Rmult_le_compat_r; lra]).
  assert (H3 : Rabs (B2R s / INR n) <= q + / 100 * q + H).
  { replace (B2R s / INR n) with ((B2R s / INR n - q) + q) by ring. eapply Rle_trans; [apply Rabs_triang|].
    rewrite (Rabs_pos_eq q) by lra. lra. }
  destruct (div_value s (f64_of_Z (Z.of_nat n)) Fs) as [F2 V2].
  - rewrite V. lra.
  - rewrite V. eapply pow_le_emax with (e := 1010%Z); [lia| |lia]. eapply Rle_trans; [exact H3|].
    assert (bpow radix2 900 <= bpow radix2 1000) by (apply bpow_le; lia).
    assert (8 * bpow radix2 1000 <= bpow radix2 1010).
    { change 8 with (bpow radix2 3). rewrite <- bpow_plus. apply bpow_le. lia. }
    lra.
  - split; [exact F2|]. unfold r. rewrite V2, V.
    replace (rnd (B2R s / INR n) - q) with ((rnd (B2R s / INR n) - B2R s / INR n) + (B2R s / INR n - q)) by ring.
    eapply Rle_trans; [apply Rabs_triang|]. pose proof (rnd_error (B2R s / INR n)) as Hre.
    assert (H4 : ulp1 * Rabs (B2R s / INR n) <= ulp1 * (q + / 100 * q + H)) by (apply Rmult_le_compat_l; lra).
    assert (H5 : ulp1 * H <= H) by (rewrite <- (Rmult_1_l H) at 2; apply Rmult_le_compat_r; lra).
    assert (0 <= ulp1 * q) by (apply Rmult_le_pos; lra). lra.
Qed.

Definition tiny : R := bpow radix2 (-660).

Section Score.
Context {P : platform}.
Hypothesis Hsq : accurate_square P.
Notation F := (@F (f64_ops P)).

Lemma square_error (a b : f64) : is_finite a = true -> Rabs (B2R a) <= bpow radix2 400 ->
  is_finite b = true -> Rabs (B2R b) <= bpow radix2 400 ->
  let x := (B2R a - B2R b) * (B2R a - B2R b) in
  is_finite (p_sqr P (Bminus mode_NE a b)) = true /\
  Rabs (B2R (p_sqr P (Bminus mode_NE a b)) - x) <= 5 * ulp1 * Rabs x + tiny /\ 0 <= x <= bpow radix2 802.
Proof.
  intros Fa Ha Fb Hb x. pose proof ulp1_pos as Hu. pose proof ulp1_small as Hu'. pose proof eta1_pos as He.
  set (d := B2R a - B2R b) in *.
  assert (Hd : Rabs d <= bpow radix2 401).
  { change 401%Z with (400 + 1)%Z. rewrite bpow_two. unfold d. unfold Rminus. eapply Rle_trans; [apply Rabs_triang|]. rewrite Rabs_Ropp. lra. }
  destruct (minus_value a b Fa Fb) as [Fy Vy].
  { eapply pow_le_emax with (e := 401%Z); [lia| |lia]. exact Hd. }
  fold d in Vy. set (y := Bminus mode_NE a b) in *. pose proof (rnd_error d) as Hre. rewrite <- Vy in Hre.
  set (e := B2R y - d) in *. pose proof (Rabs_pos d) as Pd. pose proof (Rabs_pos e) as Pe.
  assert (Hx0 : 0 <= x) by apply Rle_0_sqr.
  assert (Exd : Rabs d * Rabs d = x) by (rewrite <- Rabs_mult; unfold x; apply Rabs_pos_eq; exact Hx0).
  assert (Hx : x <= bpow radix2 802).
  { rewrite <- Exd. replace (bpow radix2 802) with (bpow radix2 401 * bpow radix2 401) by (rewrite <- bpow_plus; reflexivity).
    apply Rmult_le_compat; lra. }
  assert (Hde : Rabs d * eta1 <= bpow radix2 (-674)).
  { apply Rle_trans with (bpow radix2 401 * eta1); [apply Rmult_le_compat_r; lra|]. unfold eta1. rewrite <- bpow_plus. apply bpow_le. lia. }
  assert (Hee : eta1 * eta1 <= bpow radix2 (-674)) by (unfold eta1; rewrite <- bpow_plus; apply bpow_le; lia).
  assert (Het : eta1 <= bpow radix2 (-674)) by (apply bpow_le; lia).
  assert (T : 64 * bpow radix2 (-674) <= tiny) by (unfold tiny; change 64 with (bpow radix2 6); rewrite <- bpow_plus; apply bpow_le; lia).
  pose proof (bpow_gt_0 radix2 (-674)) as P674.
  assert (Hux : 0 <= ulp1 * x) by (apply Rmult_le_pos; lra).
  (* the square of the rounded difference *)
  assert (Hdy : Rabs d * Rabs e <= ulp1 * x + bpow radix2 (-674)).
  { eapply Rle_trans; [apply Rmult_le_compat_l; [exact Pd|exact Hre]|]. rewrite <- Exd. lra. }
  assert (Hey : Rabs e * Rabs e <= / 1000 * (ulp1 * x) + 3 * bpow radix2 (-674)).
  { eapply Rle_trans; [apply Rmult_le_compat; [exact Pe|exact Pe|exact Hre|exact Hre]|].
    replace ((ulp1 * Rabs d + eta1) * (ulp1 * Rabs d + eta1)) with (ulp1 * (ulp1 * (Rabs d * Rabs d)) + 2 * ulp1 * (Rabs d * eta1) + eta1 * eta1) by ring.
    rewrite Exd.
    assert (ulp1 * (ulp1 * x) <= / 1000 * (ulp1 * x)) by (apply Rmult_le_compat_r; lra).
    assert (2 * ulp1 * (Rabs d * eta1) <= 1 * bpow radix2 (-674)).
    { apply Rmult_le_compat; try lra. apply Rmult_le_pos; lra. }
    lra. }
  assert (Hyx : Rabs (B2R y * B2R y - x) <= (2 + / 1000) * (ulp1 * x) + 5 * bpow radix2 (-674)).
  { replace (B2R y * B2R y - x) with (2 * (d * e) + e * e) by (unfold x, e, d; ring).
    eapply Rle_trans; [apply Rabs_triang|]. rewrite !Rabs_mult, (Rabs_pos_eq 2) by lra. lra. }
  assert (Hux' : ulp1 * x <= / 1000000 * x) by (apply Rmult_le_compat_r; lra).
  assert (Hyy : 0 <= B2R y * B2R y <= (1 + / 1000) * x + 5 * bpow radix2 (-674)).
  { split; [apply Rle_0_sqr|]. replace (B2R y * B2R y) with ((B2R y * B2R y - x) + x) by ring.
    pose proof (Rle_abs (B2R y * B2R y - x)). lra. }
  destruct (Hsq y Fy) as [Ft Et].
  { rewrite Vy. eapply Rle_trans; [apply rnd_le_format; [|exact Hd]|apply bpow_le; lia]. apply ProofScoreF64.format_pow. lia. }
  split; [exact Ft|]. split; [|split; assumption].
  replace (B2R (p_sqr P y) - x) with ((B2R (p_sqr P y) - B2R y * B2R y) + (B2R y * B2R y - x)) by ring.
  eapply Rle_trans; [apply Rabs_triang|]. rewrite (Rabs_pos_eq x) by exact Hx0.
  change (-52)%Z with (-53 + 1)%Z in Et. change (-1074)%Z with (-1075 + 1)%Z in Et. rewrite !bpow_two in Et. fold ulp1 eta1 in Et.
  assert (Hyu : ulp1 * (B2R y * B2R y) <= (1 + / 1000) * (ulp1 * x) + bpow radix2 (-674)).
  { eapply Rle_trans; [apply Rmult_le_compat_l; [lra|apply Hyy]|].
    assert (5 * ulp1 * bpow radix2 (-674) <= 1 * bpow radix2 (-674)) by (apply Rmult_le_compat_r; lra). lra. }
  lra.
Qed.

(** One row: [k] targets. *)
Lemma row_float_error (start : F) (a b : list F) (k : nat) : B2R (start : f64) = 0 -> is_finite (start : f64) = true ->
  (0 < k)%nat -> (Z.of_nat k <= 2 ^ 40)%Z -> length a = k -> length b = k ->
  Forall (fun x : f64 => is_finite x = true /\ Rabs (B2R x) <= bpow radix2 400) a ->
  Forall (fun x : f64 => is_finite x = true /\ Rabs (B2R x) <= bpow radix2 400) b ->
  let x := row_err k (map B2R a) (map B2R b) in
  is_finite (squared_error_of start (a, b) : f64) = true /\
  Rabs (B2R (squared_error_of start (a, b) : f64) - x) <= (3 * INR k + 7) * ulp1 * Rabs x + 7 * tiny /\ 0 <= x <= bpow radix2 802.
Proof.
  intros V0 F0 Hk Hk' La Lb Ha Hb x. pose proof ulp1_pos as Hu. pose proof ulp1_small as Hu'. pose proof eta1_pos as He.
  assert (Hte : eta1 <= tiny) by (apply bpow_le; lia). assert (Ht9 : tiny <= bpow radix2 900) by (apply bpow_le; lia).
  set (sq := fun q : f64 * f64 => (B2R (fst q) - B2R (snd q)) * (B2R (fst q) - B2R (snd q))).
  set (terms := map (fun q : f64 * f64 => (p_sqr P (Bminus mode_NE (fst q) (snd q)), sq q)) (combine a b)).
  assert (Hq : forall q, In q (combine a b) ->
    is_finite (p_sqr P (Bminus mode_NE (fst q) (snd q))) = true /\
    Rabs (B2R (p_sqr P (Bminus mode_NE (fst q) (snd q))) - sq q) <= 5 * ulp1 * Rabs (sq q) + tiny /\ 0 <= sq q <= bpow radix2 802).
  { intros [u v] Hin. rewrite Forall_forall in Ha, Hb. destruct (Ha u (in_combine_l _ _ _ _ Hin)). destruct (Hb v (in_combine_r _ _ _ _ Hin)).
    now apply square_error. }
  set (Q := Rsum (map sq (combine a b))).
  assert (Ex : x = Q / INR k).
  { unfold x, row_err, Q. f_equal. clear -La Lb. unfold sq. revert b k La Lb. induction a as [|u a IH]; intros [|v b] k La Lb; cbn [length] in *; subst; try discriminate; [reflexivity|].
    cbn [combine map seq]. rewrite !Rsum_cons. cbn [nth fst snd]. f_equal. rewrite <- seq_shift, map_map. cbn [nth]. apply IH; auto; lia. }
  assert (LQ : length (combine a b) = k) by (rewrite combine_length; lia).
  assert (HQ : 0 <= Q <= INR k * bpow radix2 802).
  { unfold Q. split.
    - apply Rsum_nonneg. intros z Hz. apply in_map_iff in Hz as (q & <- & Hin). apply Hq, Hin.
    - rewrite <- LQ, <- Rsum_map_const. apply Rsum_map_le. intros q Hin. apply Hq, Hin. }
  assert (Hkr : 1 <= INR k) by (apply (le_INR 1); lia).
  assert (Hkb : INR k <= bpow radix2 40).
  { rewrite INR_IZR_INZ, <- (IZR_Zpower radix2 40) by lia. apply IZR_le. change (Zpower radix2 40) with (2 ^ 40)%Z. lia. }
  assert (HQ' : Q <= bpow radix2 842).
  { eapply Rle_trans; [apply HQ|]. replace (bpow radix2 842) with (bpow radix2 40 * bpow radix2 802) by (rewrite <- bpow_plus; reflexivity).
    apply Rmult_le_compat_r; [apply bpow_ge_0|exact Hkb]. }
  assert (H84 : bpow radix2 842 <= bpow radix2 1000) by (apply bpow_le; lia).
  assert (Habs : Rsum (map (fun p : f64 * R => Rabs (snd p)) terms) = Q).
  { unfold terms, Q. rewrite map_map. cbn [snd]. apply Rsum_map_ext. intros q Hin. apply Rabs_pos_eq, Hq, Hin. }
  assert (Hsum : Rsum (map snd terms) = Q) by (unfold terms, Q; rewrite map_map; reflexivity).
  assert (LT : length terms = k) by exact (eq_trans (map_length _ _) LQ).
  pose proof (count_small k Hk') as Hck.
  destruct (accumulate_relative (5 * ulp1) Q tiny ltac:(lra) ltac:(lra) ltac:(lra) terms start 0 0 0%nat) as [F1 E1].
  - exact F0.
  - rewrite V0, Rminus_diag_eq by reflexivity. rewrite Rabs_R0. cbn [INR]. lra.
  - rewrite Rabs_R0. lra.
  - rewrite Habs. lra.
  - rewrite LT. cbn [Nat.add]. exact Hk'.
  - unfold terms. apply Forall_map, Forall_forall. intros q Hin. cbn [fst snd]. destruct (Hq q Hin) as (A & B & _). auto.
  - rewrite Habs, Hsum, !Rplus_0_l in E1. rewrite LT in E1. cbn [Nat.add] in E1.
    match type of F1 with is_finite ?z = true => set (s := z) in * end.
    assert (HuQ : 0 <= ulp1 * Q) by (apply Rmult_le_pos; lra).
    destruct (divide_error s k Q ((3 * INR k + 5) * ulp1) (3 * tiny) F1 Hk Hk') as [F2 E2].
    + split; [apply Rmult_le_pos; lra|]. lra.
    + lra.
    + split; [unfold tiny; pose proof (bpow_gt_0 radix2 (-660)); lra|].
      unfold tiny. assert (4 * bpow radix2 (-660) <= bpow radix2 900); [|pose proof (bpow_gt_0 radix2 (-660)); lra].
      change 4 with (bpow radix2 2). rewrite <- bpow_plus. apply bpow_le. lia.
    + lra.
    + assert (Er : squared_error_of start (a, b) = Bdiv mode_NE s (f64_of_Z (Z.of_nat k))).
      { unfold squared_error_of. cbn [fst snd]. rewrite La. unfold s, terms.
        match goal with |- _ = Bdiv mode_NE ?z _ => assert (Ef : @fold_left F F fadd (map (fun q : F * F => fsqr (fsub (fst q) (snd q))) (combine a b)) start = z) end.
        { generalize start. generalize (combine a b). intros l. induction l as [|q l IH]; intros st; cbn [map fold_left fst]; auto. }
        rewrite Ef. reflexivity. }
      rewrite Er, Ex. split; [exact F2|].
      assert (Hqk : 0 <= Q / INR k <= bpow radix2 802).
      { split; [apply Rmult_le_pos; [lra|left; apply Rinv_0_lt_compat; lra]|].
        apply Rmult_le_reg_r with (INR k); [lra|]. unfold Rdiv. rewrite Rmult_assoc, Rinv_l, Rmult_1_r by lra. lra. }
      split; [|exact Hqk]. rewrite (Rabs_pos_eq (Q / INR k)) by lra.
      eapply Rle_trans; [exact E2|]. lra.
Qed.

(** All rows. *)
Theorem mse_float_error (start : F) (pairs : list (list F * list F)) (k : nat) : B2R (start : f64) = 0 -> is_finite (start : f64) = true ->
  (0 < k)%nat -> (Z.of_nat k <= 2 ^ 40)%Z -> pairs <> [] -> (Z.of_nat (length pairs) <= 2 ^ 40)%Z ->
  Forall (fun p => length (fst p) = k /\ length (snd p) = k) pairs -> moderate (map fst pairs) -> moderate (map snd pairs) ->
  let exact := Rsum (map (fun p => row_err k (map B2R (fst p)) (map B2R (snd p))) pairs) / INR (length pairs) in
  is_finite (mean_squared_error_of start pairs : f64) = true /\
  Rabs (B2R (mean_squared_error_of start pairs : f64) - exact) <= bpow radix2 (-51) * INR (length pairs + k + 3) * exact + bpow radix2 (-600).
Proof.
  intros V0 F0 Hk Hk' Hne Hn' HL M1 M2 exact. pose proof ulp1_pos as Hu. pose proof ulp1_small as Hu'. pose proof eta1_pos as He.
  assert (Hte : eta1 <= tiny) by (apply bpow_le; lia). pose proof (bpow_gt_0 radix2 (-660)) as Pt. fold tiny in Pt.
  assert (Ht9 : 256 * tiny <= bpow radix2 900).
  { unfold tiny. change 256 with (bpow radix2 8). rewrite <- bpow_plus. apply bpow_le. lia. }
  set (err := fun p : list F * list F => row_err k (map B2R (fst p)) (map B2R (snd p))) in *.
  set (terms := map (fun p : list F * list F => (squared_error_of start p : f64, err p)) pairs).
  assert (Hq : forall p, In p pairs -> is_finite (squared_error_of start p : f64) = true /\
    Rabs (B2R (squared_error_of start p : f64) - err p) <= (3 * INR k + 7) * ulp1 * Rabs (err p) + 7 * tiny /\ 0 <= err p <= bpow radix2 802).
  { intros [a b] Hin. rewrite Forall_forall in HL. destruct (HL _ Hin) as [La Lb]. cbn [fst snd] in *.
    unfold moderate in M1, M2. rewrite Forall_forall in M1, M2.
    apply (row_float_error start a b k); auto; [apply M1|apply M2]; apply in_map_iff; exists (a, b); auto. }
  set (Q := Rsum (map err pairs)) in *. set (n := length pairs) in *.
  assert (Hn : (1 <= n)%nat) by (unfold n; destruct pairs; [congruence|cbn [length]; lia]).
  assert (HQ : 0 <= Q <= INR n * bpow radix2 802).
  { unfold Q. split.
    - apply Rsum_nonneg. intros z Hz. apply in_map_iff in Hz as (q & <- & Hin). apply Hq, Hin.
    - unfold n. rewrite <- Rsum_map_const. apply Rsum_map_le. intros q Hin. apply Hq, Hin. }
  assert (Hnr : 1 <= INR n) by (apply (le_INR 1); lia). assert (Hkr : 1 <= INR k) by (apply (le_INR 1); lia).
  assert (Hnb : INR n <= bpow radix2 40).
  { rewrite INR_IZR_INZ, <- (IZR_Zpower radix2 40) by lia. apply IZR_le. change (Zpower radix2 40) with (2 ^ 40)%Z. lia. }
  assert (HQ' : Q <= bpow radix2 842).
  { eapply Rle_trans; [apply HQ|]. replace (bpow radix2 842) with (bpow radix2 40 * bpow radix2 802) by (rewrite <- bpow_plus; reflexivity).
    apply Rmult_le_compat_r; [apply bpow_ge_0|exact Hnb]. }
  assert (H84 : bpow radix2 842 <= bpow radix2 1000) by (apply bpow_le; lia).
  assert (Habs : Rsum (map (fun p : f64 * R => Rabs (snd p)) terms) = Q).
  { unfold terms, Q. rewrite map_map. cbn [snd]. apply Rsum_map_ext. intros q Hin. apply Rabs_pos_eq, Hq, Hin. }
  assert (Hsum : Rsum (map snd terms) = Q) by (unfold terms, Q; rewrite map_map; reflexivity).
  assert (LT : length terms = n) by apply map_length.
  pose proof (count_small k Hk') as Hck. pose proof (count_small n Hn') as Hcn.
  destruct (accumulate_relative ((3 * INR k + 7) * ulp1) Q (7 * tiny)) with (terms := terms) (s := (f0 : F) : f64) (E := 0) (A := 0) (k := 0%nat) as [F1 E1].
  - split; [apply Rmult_le_pos; lra|lra].
  - lra.
  - lra.
  - reflexivity.
  - change (B2R ((f0 : F) : f64)) with 0. rewrite Rminus_diag_eq by reflexivity. rewrite Rabs_R0. cbn [INR]. lra.
  - rewrite Rabs_R0. lra.
  - rewrite Habs. lra.
  - rewrite LT. cbn [Nat.add]. exact Hn'.
  - unfold terms. apply Forall_map, Forall_forall. intros q Hin. cbn [fst snd]. destruct (Hq q Hin) as (A & B & _). auto.
  - rewrite Habs, Hsum, !Rplus_0_l in E1. rewrite LT in E1. cbn [Nat.add] in E1.
    match type of F1 with is_finite ?z = true => set (s := z) in * end.
    assert (HuQ : 0 <= ulp1 * Q) by (apply Rmult_le_pos; lra).
    destruct (divide_error s n Q ((3 * INR n + 3 * INR k + 7) * ulp1) (21 * tiny) F1 Hn Hn') as [F2 E2].
    + split; [apply Rmult_le_pos; lra|]. lra.
    + lra.
    + lra.
    + lra.
    + assert (Er : mean_squared_error_of start pairs = Bdiv mode_NE s (f64_of_Z (Z.of_nat n))).
      { unfold mean_squared_error_of. fold n. unfold s, terms.
        match goal with |- _ = Bdiv mode_NE ?z _ => assert (Ef : @fold_left F F fadd (map (squared_error_of start) pairs) f0 = z) end.
        { generalize (@f0 (f64_ops P)). clear. induction pairs as [|q l IH]; intros st; cbn [map fold_left fst]; auto. }
        rewrite Ef. reflexivity. }
      rewrite Er. split; [exact F2|]. change exact with (Q / INR n).
      eapply Rle_trans; [exact E2|]. rewrite !plus_INR. replace (INR 3) with 3 by (cbn; ring).
      change (-51)%Z with (-53 + 1 + 1)%Z. rewrite !bpow_two. fold ulp1.
      assert (T : 64 * tiny <= bpow radix2 (-600)) by (unfold tiny; change 64 with (bpow radix2 6); rewrite <- bpow_plus; apply bpow_le; lia).
      assert (Hqn : 0 <= ulp1 * (Q / INR n)).
      { apply Rmult_le_pos; [lra|]. apply Rmult_le_pos; [lra|left; apply Rinv_0_lt_compat; lra]. }
      assert (Hqn1 : 0 <= INR n * (ulp1 * (Q / INR n))) by (apply Rmult_le_pos; lra).
      assert (Hqn2 : 0 <= INR k * (ulp1 * (Q / INR n))) by (apply Rmult_le_pos; lra).
      replace (((3 * INR n + 3 * INR k + 7) * ulp1 + 2 * ulp1) * (Q / INR n)) with
        (3 * (INR n * (ulp1 * (Q / INR n))) + 3 * (INR k * (ulp1 * (Q / INR n))) + 9 * (ulp1 * (Q / INR n))) by ring.
      replace (2 * (2 * ulp1) * (INR n + INR k + 3) * (Q / INR n)) with
        (4 * (INR n * (ulp1 * (Q / INR n))) + 4 * (INR k * (ulp1 * (Q / INR n))) + 12 * (ulp1 * (Q / INR n))) by ring.
      lra.
Qed.

Lemma tree_score_any (t : tree_node regression_leaf) (test : @dataset (f64_ops P)) (ps : list (list F)) :
  length (feature_rows test) = length (labels test) ->
  Forall2 (fun row p => tree_prediction row t = Ok p) (feature_rows test) ps ->
  Forall (fun p => length (fst p) = length (snd p)) (combine ps (labels test)) ->
  calculate_overall_mean_squared_error test t = Ok (mean_squared_error_of f0 (combine ps (labels test))).
Proof using.
  clear. intros HL HP HE. rewrite tree_mse_eq by lia. pose proof (Forall2_length _ _ _ HP) as Hlen.
  assert (E : mapM (tree_row_error t) (samples test) = Ok (map (squared_error_of f0) (combine ps (labels test)))).
  { unfold samples. clear HL. revert HE. generalize (labels test). induction HP as [|row p rows ps Ep HP IH]; intros [|l ls] HE; try reflexivity.
    cbn [combine map mapM] in *. inversion HE as [|? ? H1 H2]; subst. cbn [fst snd] in H1.
    assert (Er : tree_row_error t (row, l) = mean_sum_of_squared_differences_between_vectors p l).
    { unfold tree_row_error. unfold tree_prediction in Ep. cbn [fst snd]. destruct (find_leaf_node_for_data row t) as [lf| |]; cbn [bind] in *; try discriminate.
      destruct (unwrap (rl_data lf)); cbn [bind] in *; try discriminate. rewrite Ep. reflexivity. }
    rewrite Er. rewrite squared_loop by (rewrite H1; apply Nat.le_refl). cbn [bind].
    rewrite IH; [|cbn [length] in Hlen; lia|exact H2]. cbn [bind]. f_equal. f_equal. unfold squared_error_of, sq_diffs. cbn [fst snd]. now rewrite map2_combine. }
  rewrite E. cbn [bind]. unfold mean_squared_error_of. rewrite combine_length, <- Hlen, <- HL, Nat.min_id. reflexivity.
Qed.

Lemma exact_mse (k : nat) (ps ls : list (list F)) : length ps = length ls ->
  mean_squared_error k (map (map B2R) ps) (map (map B2R) ls) =
  Rsum (map (fun p => row_err k (map B2R (fst p)) (map B2R (snd p))) (combine ps ls)) / INR (length (combine ps ls)).
Proof using.
  clear. intros HL. unfold mean_squared_error, mean. rewrite map_length. f_equal; [f_equal|].
  - clear HL. revert ls. induction ps as [|p ps IH]; intros [|l ls]; try reflexivity. cbn [map combine fst snd]. f_equal; [apply row_error_err|apply IH].
  - rewrite !combine_length, !map_length. reflexivity.
Qed.

Lemma moderate_combine_l (a b : list (list F)) : moderate a -> moderate (map fst (combine a b)).
Proof using.
  clear. unfold moderate. rewrite !Forall_forall. intros H x Hx. apply H. apply in_map_iff in Hx as ([u v] & <- & Hin).
  now apply in_combine_l in Hin.
Qed.
Lemma moderate_combine_r (a b : list (list F)) : moderate b -> moderate (map snd (combine a b)).
Proof using.
  clear. unfold moderate. rewrite !Forall_forall. intros H x Hx. apply H. apply in_map_iff in Hx as ([u v] & <- & Hin).
  now apply in_combine_r in Hin.
Qed.

Lemma lengths_combine k (a b : list (list F)) : rectangular k a -> rectangular k b -> Forall (fun p => length (fst p) = k /\ length (snd p) = k) (combine a b).
Proof using.
  clear. unfold rectangular. rewrite !Forall_forall. intros Ha Hb [u v] Hin. split; [apply Ha|apply Hb]; [now apply in_combine_l in Hin|now apply in_combine_r in Hin].
Qed.

Lemma combine_nonempty {A B} (a : list A) (b : list B) : a <> [] -> length a = length b -> combine a b <> [].
Proof using. clear. destruct a, b; cbn; congruence. Qed.

Theorem tree_score_float (nt : nat) (t : tree_node regression_leaf) (test : @dataset (f64_ops P)) (ps : list (list F)) :
  (0 < nt)%nat -> (Z.of_nat nt <= 2 ^ 40)%Z -> labels test <> [] -> (Z.of_nat (length (labels test)) <= 2 ^ 40)%Z ->
  rectangular nt (labels test) -> length (feature_rows test) = length (labels test) ->
  Forall2 (fun row p => tree_prediction row t = Ok p /\ length p = nt) (feature_rows test) ps ->
  moderate ps -> moderate (labels test) ->
  let exact := mean_squared_error nt (map (map B2R) ps) (map (map B2R) (labels test)) in
  exists e, calculate_overall_mean_squared_error test t = Ok e /\ is_finite e = true /\
    Rabs (B2R e - exact) <= bpow radix2 (-51) * INR (length (labels test) + nt + 3) * exact + bpow radix2 (-600).
Proof.
  intros Hk Hk' Hne Hn HR HL HP M1 M2 exact. pose proof (Forall2_length _ _ _ HP) as Hlen.
  assert (Rp : rectangular nt ps).
  { clear -HP. induction HP as [|? ? ? ? [_ H]]; constructor; auto. }
  assert (LC : length ps = length (labels test)) by lia.
  assert (LL : length (combine ps (labels test)) = length (labels test)) by (rewrite combine_length; lia).
  exists (mean_squared_error_of f0 (combine ps (labels test))). split.
  - apply tree_score_any; auto.
    + clear -HP. induction HP as [|? ? ? ? [H _]]; constructor; auto.
    + eapply Forall_impl; [|apply (lengths_combine nt); eauto]. cbn beta. intros p [-> ->]. reflexivity.
  - unfold exact. rewrite (exact_mse nt ps (labels test) LC). rewrite <- LL.
    apply mse_float_error; auto.
    + apply combine_nonempty; auto. intros ->. cbn [length] in LC. symmetry in LC. apply length_zero_iff_nil in LC. contradiction.
    + rewrite LL. exact Hn.
    + now apply lengths_combine.
    + now apply moderate_combine_l.
    + now apply moderate_combine_r.
Qed.

Lemma mse_sym k (a b : list (list R)) : mean_squared_error k a b = mean_squared_error k b a.
Proof using.
  clear. unfold mean_squared_error, mean. rewrite !map_length, !combine_length, (Nat.min_comm (length a)). f_equal.
  f_equal. revert b. induction a as [|x a IH]; intros [|y b]; try reflexivity. cbn [map combine fst snd]. f_equal; [|apply IH].
  rewrite !row_error_err. apply row_err_sym.
Qed.

Theorem ensemble_score_float (nt : nat) (m : regression_boost_model) (test : @dataset (f64_ops P)) (ps : list (list F)) :
  (0 < nt)%nat -> (Z.of_nat nt <= 2 ^ 40)%Z -> labels test <> [] -> (Z.of_nat (length (labels test)) <= 2 ^ 40)%Z ->
  rectangular nt (labels test) -> length (feature_rows test) = length (labels test) ->
  Forall2 (fun row p => regression_boost_predict m row = Ok p /\ length p = nt) (feature_rows test) ps ->
  moderate ps -> moderate (labels test) ->
  let exact := mean_squared_error nt (map (map B2R) ps) (map (map B2R) (labels test)) in
  exists e, regression_boost_score m test = Ok e /\ is_finite e = true /\
    Rabs (B2R e - exact) <= bpow radix2 (-51) * INR (length (labels test) + nt + 3) * exact + bpow radix2 (-600).
Proof.
  intros Hk Hk' Hne Hn HR HL HP M1 M2 exact. pose proof (Forall2_length _ _ _ HP) as Hlen.
  assert (Rp : rectangular nt ps).
  { clear -HP. induction HP as [|? ? ? ? [_ H]]; constructor; auto. }
  assert (LC : length (labels test) = length ps) by lia.
  assert (LL : length (combine (labels test) ps) = length (labels test)) by (rewrite combine_length; lia).
  exists (mean_squared_error_of fsum0 (combine (labels test) ps)). split.
  - apply regression_score_eq; auto.
    + clear -HP. induction HP as [|? ? ? ? [H _]]; constructor; auto.
    + lia.
    + eapply Forall_impl; [|apply (lengths_combine nt); eauto]. cbn beta. intros p [-> ->]. reflexivity.
  - unfold exact. rewrite mse_sym, (exact_mse nt (labels test) ps LC). rewrite <- LL.
    apply mse_float_error; auto.
    + apply combine_nonempty; auto.
    + rewrite LL. exact Hn.
    + now apply lengths_combine.
    + now apply moderate_combine_l.
    + now apply moderate_combine_r.
Qed.

End Score.

(** The product is an accurate square. *)
Lemma product_is_accurate (P : platform) : (forall x, p_sqr P x = Bmult mode_NE x x) -> accurate_square P.
Proof.
  intros H x Fx Hx. rewrite H. pose proof (Rabs_pos (B2R x)) as Px. pose proof ulp1_pos. pose proof eta1_pos.
  assert (Hxx : 0 <= B2R x * B2R x) by apply Rle_0_sqr.
  assert (Hb : Rabs (B2R x * B2R x) <= bpow radix2 1010).
  { rewrite Rabs_mult. apply Rle_trans with (bpow radix2 500 * bpow radix2 500); [apply Rmult_le_compat; assumption|].
    rewrite <- bpow_plus. apply bpow_le. lia. }
  destruct (product_error x x Fx Fx Hb) as [F1 E1]. split; [exact F1|].
  eapply Rle_trans; [exact E1|]. rewrite (Rabs_pos_eq _ Hxx).
  change (-52)%Z with (-53 + 1)%Z. change (-1074)%Z with (-1075 + 1)%Z. rewrite !bpow_two. fold ulp1 eta1.
  assert (0 <= ulp1 * (B2R x * B2R x)) by (apply Rmult_le_pos; lra). lra.
Qed.
