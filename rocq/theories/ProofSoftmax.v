(** Rounding errors of class probabilities and residuals in binary64. *)
From Coq Require Import Reals Lra Lia ZArith.
From Flocq Require Import Core Relative.
From Flocq Require Import IEEE754.BinarySingleNaN.
From Verif Require Import Base Num F64 ModelCommon ModelTree ModelBoost Lib Spec SpecTree SpecExact SpecScore SpecFit SpecError SpecClass SpecPredict
  ProofReal ProofSort ProofRound ProofError ProofBoost ProofPredict ProofMse ProofClassF64.
Local Open Scope R_scope.

Lemma exp_300 x : x <= 300 -> exp x <= bpow radix2 600.
Proof.
  intros H. apply Rle_trans with (exp 300); [destruct H as [H|H]; [left; now apply exp_increasing|right; now rewrite H]|].
  assert (E : forall n, exp (INR n) <= 4 ^ n).
  { induction n as [|n IH]; [cbn; rewrite exp_0; lra|]. rewrite S_INR, exp_plus. cbn [pow]. pose proof exp_le_3. pose proof (exp_pos (INR n)). pose proof (exp_pos 1).
    rewrite Rmult_comm. apply Rmult_le_compat; lra. }
  replace 300 with (INR 300) by (rewrite INR_IZR_INZ; reflexivity). eapply Rle_trans; [apply E|].
  right. replace 4 with (bpow radix2 2) by (cbn; lra). 
  assert (B : forall n, bpow radix2 2 ^ n = bpow radix2 (2 * Z.of_nat n)).
  { induction n as [|n IH]; [reflexivity|]. cbn [pow]. rewrite IH, <- bpow_plus. f_equal. lia. }
  rewrite B. reflexivity.
Qed.

Lemma exp_m300 x : -300 <= x -> bpow radix2 (-600) <= exp x.
Proof.
  intros H. rewrite <- (Ropp_involutive x), exp_Ropp. rewrite (bpow_opp radix2 600 : bpow radix2 (-600) = _).
  apply Rinv_le; [apply exp_pos|]. apply exp_300. lra.
Qed.

Section Softmax.
Context {P : platform}.
Hypothesis Hexp : accurate_exp P.
Notation F := (@F (f64_ops P)).

Section Row.
Variable s : list f64.
Hypothesis Hs : Forall (fun x : f64 => is_finite x = true /\ Rabs (B2R x) <= 300) s.
Hypothesis Hk : (1 <= length s)%nat.
Hypothesis Hk' : (Z.of_nat (length s) <= 2 ^ 40)%Z.

Let total : f64 := fold_left (Bplus mode_NE) (map (p_exp P) s) (B754_zero (p_sum_from_negative_zero P)).
Let Q := Rsum (map (fun x => exp (B2R x)) s).

Lemma entry x : In x s -> is_finite (p_exp P x) = true /\ Rabs (B2R (p_exp P x) - exp (B2R x)) <= 2 * ulp1 * exp (B2R x) /\
  bpow radix2 (-600) <= exp (B2R x) <= bpow radix2 600.
Proof.
  intros Hx. rewrite Forall_forall in Hs. destruct (Hs x Hx) as [Fx Bx]. destruct (Hexp x Fx Bx) as [Fe Ee].
  split; [exact Fe|]. split.
  - change (-52)%Z with (-53 + 1)%Z in Ee. rewrite bpow_two in Ee. exact Ee.
  - apply Rabs_le_inv in Bx. split; [apply exp_m300|apply exp_300]; lra.
Qed.

Lemma total_error : is_finite total = true /\ Rabs (B2R total - Q) <= (3 * INR (length s) + 3) * ulp1 * Q /\
  bpow radix2 (-600) <= Q <= bpow radix2 640 /\ forall x, In x s -> exp (B2R x) <= Q.
Proof.
  pose proof ulp1_pos as Hu. pose proof ulp1_small as Hu'. pose proof eta1_pos as He.
  set (terms := map (fun x => (p_exp P x, exp (B2R x))) s).
  set (n := length s) in *.
  assert (Hn1 : 1 <= INR n) by (apply (le_INR 1); exact Hk).
  assert (Hnb : INR n <= bpow radix2 40).
  { rewrite INR_IZR_INZ, <- (IZR_Zpower radix2 40) by lia. apply IZR_le. change (Zpower radix2 40) with (2 ^ 40)%Z. lia. }
  assert (HQm : forall x, In x s -> exp (B2R x) <= Q).
  { intros x Hx. unfold Q. clear -Hx. induction s as [|y l IH]; [destruct Hx|]. cbn [map]. rewrite Rsum_cons.
    assert (0 <= Rsum (map (fun x => exp (B2R x)) l)).
    { apply Rsum_nonneg. intros z Hz. apply in_map_iff in Hz as (p & <- & _). left. apply exp_pos. }
    pose proof (exp_pos (B2R y)). destruct Hx as [->|Hx]; [lra|]. specialize (IH Hx). lra. }
  assert (HQ1 : bpow radix2 (-600) <= Q).
  { destruct s as [|x l] eqn:Es; [cbn in n; unfold n in Hk; lia|]. rewrite <- Es in *. assert (Hx : In x s) by (rewrite Es; now left).
    eapply Rle_trans; [apply (entry x Hx)|]. now apply HQm. }
  assert (HQ2 : Q <= bpow radix2 640).
  { apply Rle_trans with (INR n * bpow radix2 600).
    - unfold Q, n. rewrite <- Rsum_map_const. apply Rsum_map_le. intros x Hx. apply (entry x Hx).
    - replace (bpow radix2 640) with (bpow radix2 40 * bpow radix2 600) by (rewrite <- bpow_plus; reflexivity).
      apply Rmult_le_compat_r; [apply bpow_ge_0|exact Hnb]. }
  assert (Habs : Rsum (map (fun p : f64 * R => Rabs (snd p)) terms) = Q).
  { unfold terms, Q. rewrite map_map. cbn [snd]. apply Rsum_map_ext. intros x _. apply Rabs_pos_eq. left. apply exp_pos. }
  assert (Hsum : Rsum (map snd terms) = Q) by (unfold terms, Q; rewrite map_map; reflexivity).
  assert (LT : length terms = n) by apply map_length.
  pose proof (bpow_gt_0 radix2 (-600)) as P6. pose proof eta1_le_900 as H9.
  assert (H64 : bpow radix2 640 <= bpow radix2 1000) by (apply bpow_le; lia).
  set (start := B754_zero (p_sum_from_negative_zero P) : f64) in *.
  destruct (accumulate_relative (2 * ulp1) Q eta1 ltac:(lra) ltac:(lra) ltac:(lra) terms start 0 0 0%nat) as [F1 E1].
  - reflexivity.
  - change (B2R start) with 0. rewrite Rminus_diag_eq by reflexivity. rewrite Rabs_R0. cbn [INR]. lra.
  - rewrite Rabs_R0. lra.
  - rewrite Habs. lra.
  - rewrite LT. exact Hk'.
  - unfold terms. apply Forall_map, Forall_forall. intros x Hx. cbn [fst snd]. destruct (entry x Hx) as (A & B & _). split; [exact A|].
    rewrite (Rabs_pos_eq (exp _)) by (left; apply exp_pos). lra.
  - rewrite Habs, Hsum, !Rplus_0_l, LT in E1. cbn [Nat.add] in E1.
    match type of F1 with is_finite ?z = true => assert (Et : z = total) end.
    { unfold total, terms. fold start. generalize start. clear. induction s as [|x l IH]; intros st; cbn [map fold_left fst]; auto. }
    rewrite Et in F1, E1. split; [exact F1|]. split; [|split; [split; assumption|exact HQm]].
    assert (Hne : INR n * (3 * eta1) <= ulp1 * Q).
    { apply Rle_trans with (bpow radix2 40 * (bpow radix2 2 * eta1)).
      - apply Rmult_le_compat; try lra. change (bpow radix2 2) with 4. lra.
      - apply Rle_trans with (ulp1 * bpow radix2 (-600)); [|apply Rmult_le_compat_l; lra].
        unfold ulp1, eta1. rewrite <- !bpow_plus. apply bpow_le. lia. }
    lra.
Qed.

(** The probability of one class. *)
Lemma probability_error x : In x s ->
  let p := Bmult mode_NE (p_exp P x) (Bdiv mode_NE Bone total) in
  let q := exp (B2R x) / Q in
  is_finite p = true /\ Rabs (B2R p - q) <= (4 * INR (length s) + 11) * ulp1 * q + bpow radix2 (-1074) /\ 0 < q <= 1.
Proof.
  intros Hx p q. pose proof ulp1_pos as Hu. pose proof ulp1_small as Hu'. pose proof eta1_pos as He.
  destruct total_error as (Ft & Et & (HQ1 & HQ2) & HQm). destruct (entry x Hx) as (Fe & Ee & He1 & He2).
  set (n := length s) in *. assert (Hn1 : 1 <= INR n) by (apply (le_INR 1); exact Hk).
  pose proof (count_small n Hk') as Hc. set (al := (3 * INR n + 3) * ulp1) in *.
  assert (Hal : 0 <= al <= / 1000) by (unfold al; split; [apply Rmult_le_pos; lra|lra]).
  pose proof (bpow_gt_0 radix2 (-600)) as P6. assert (Qpos : 0 < Q) by lra.
  set (T := B2R total) in *.
  assert (HalQ : al * Q <= / 1000 * Q) by (apply Rmult_le_compat_r; lra).
  assert (HT : (1 - / 1000) * Q <= T <= (1 + / 1000) * Q) by (apply Rabs_le_inv in Et; lra).
  assert (Tpos : 0 < T) by lra.
  set (E := exp (B2R x)) in *. assert (Epos : 0 < E) by apply exp_pos.
  (* the inverse *)
  set (z := / T). assert (Hz0 : 0 < z) by (apply Rinv_0_lt_compat; exact Tpos).
  assert (HzQ : Rabs (z * Q - 1) <= (1 + / 100) * al).
  { replace (z * Q - 1) with (- (T - Q) * z) by (unfold z; field; lra). rewrite Rabs_mult, Rabs_Ropp, (Rabs_pos_eq z) by lra.
    apply Rle_trans with (al * Q * z); [apply Rmult_le_compat_r; lra|].
    assert (HQz : Q * z <= 1 + / 100).
    { unfold z. apply Rmult_le_reg_r with T; [exact Tpos|]. rewrite Rmult_assoc, Rinv_l, Rmult_1_r by lra. lra. }
    rewrite Rmult_assoc, (Rmult_comm (1 + _)). apply Rmult_le_compat_l; lra. }
  assert (Hzb : bpow radix2 (-642) <= z <= bpow radix2 602).
  { unfold z. split.
    - rewrite (bpow_opp radix2 642 : bpow radix2 (-642) = _). apply Rinv_le; [exact Tpos|].
      change 642%Z with (640 + 1 + 1)%Z. rewrite !bpow_two. lra.
    - replace (bpow radix2 602) with (/ bpow radix2 (-602)) by (rewrite <- bpow_opp; reflexivity). apply Rinv_le; [apply bpow_gt_0|].
      assert (bpow radix2 (-600) = 4 * bpow radix2 (-602)) by (change (-600)%Z with (-602 + 1 + 1)%Z; rewrite !bpow_two; ring). lra. }
  assert (Bone_1 : B2R (Bone : f64) = 1) by apply Bone_correct.
  destruct (div_value Bone total) as [Fr Vr].
  - reflexivity.
  - fold T. lra.
  - rewrite Bone_1. fold T. replace (1 / T) with z by (unfold z, Rdiv; ring). eapply pow_le_emax with (e := 602%Z); [lia| |lia].
    rewrite Rabs_pos_eq by lra. apply Hzb.
  - rewrite Bone_1 in Vr. fold T in Vr. replace (1 / T) with z in Vr by (unfold z, Rdiv; ring).
    set (r := Bdiv mode_NE Bone total) in *. pose proof (rnd_error z) as Hr. rewrite <- Vr in Hr. rewrite (Rabs_pos_eq z) in Hr by lra.
    assert (Hez : eta1 <= ulp1 * z).
    { apply Rle_trans with (ulp1 * bpow radix2 (-642)); [|apply Rmult_le_compat_l; lra].
      unfold ulp1, eta1. rewrite <- bpow_plus. apply bpow_le. lia. }
    assert (Hr2 : Rabs (B2R r - z) <= 2 * ulp1 * z) by lra.
    set (e := B2R (p_exp P x)) in *.
    (* e * r against E / Q *)
    assert (Eq : q = E / Q) by reflexivity. assert (Hq : 0 < q <= 1).
    { rewrite Eq. split; [apply Rmult_lt_0_compat; [lra|apply Rinv_0_lt_compat; lra]|].
      apply Rmult_le_reg_r with Q; [lra|]. unfold Rdiv. rewrite Rmult_assoc, Rinv_l, Rmult_1_r, Rmult_1_l by lra. now apply HQm. }
    set (a := e / E - 1). set (b := z * Q - 1). set (c := B2R r / z - 1).
    assert (Ha : Rabs a <= 2 * ulp1).
    { unfold a. replace (e / E - 1) with ((e - E) / E) by (field; lra). unfold Rdiv. rewrite Rabs_mult, (Rabs_pos_eq (/ E)) by (left; apply Rinv_0_lt_compat; lra).
      apply Rmult_le_reg_r with E; [lra|]. rewrite Rmult_assoc, Rinv_l, Rmult_1_r by lra. exact Ee. }
    assert (Hcc : Rabs c <= 2 * ulp1).
    { unfold c. replace (B2R r / z - 1) with ((B2R r - z) / z) by (field; lra). unfold Rdiv. rewrite Rabs_mult, (Rabs_pos_eq (/ z)) by (left; apply Rinv_0_lt_compat; lra).
      apply Rmult_le_reg_r with z; [lra|]. rewrite Rmult_assoc, Rinv_l, Rmult_1_r by lra. exact Hr2. }
    assert (Eer : e * B2R r = q * ((1 + a) * (1 + b) * (1 + c))) by (unfold a, b, c; rewrite Eq; field; repeat split; lra).
    assert (Hprod : Rabs ((1 + a) * (1 + b) * (1 + c) - 1) <= (1 + / 50) * al + 5 * ulp1).
    { replace ((1 + a) * (1 + b) * (1 + c) - 1) with (b + (a + c + a * c) * (1 + b)) by ring.
      assert (Hac : Rabs (a + c + a * c) <= (4 + / 1000) * ulp1).
      { eapply Rle_trans; [apply Rabs_triang|]. eapply Rle_trans; [apply Rplus_le_compat_r, Rabs_triang|]. rewrite Rabs_mult.
        assert (Rabs a * Rabs c <= (2 * ulp1) * (2 * ulp1)) by (apply Rmult_le_compat; try apply Rabs_pos; assumption).
        assert (2 * ulp1 * (2 * ulp1) <= / 1000 * ulp1) by (rewrite <- Rmult_assoc; apply Rmult_le_compat_r; lra). lra. }
      assert (Hb1 : Rabs (1 + b) <= 1 + / 100).
      { eapply Rle_trans; [apply Rabs_triang|]. rewrite Rabs_R1. unfold b. lra. }
      eapply Rle_trans; [apply Rabs_triang|]. rewrite (Rabs_mult (a + c + a * c)).
      assert (Rabs (a + c + a * c) * Rabs (1 + b) <= (4 + / 1000) * ulp1 * (1 + / 100)) by (apply Rmult_le_compat; try apply Rabs_pos; assumption).
      unfold b in *. lra. }
    assert (Herq : Rabs (e * B2R r - q) <= ((1 + / 50) * al + 5 * ulp1) * q).
    { rewrite Eer. replace (q * ((1 + a) * (1 + b) * (1 + c)) - q) with (((1 + a) * (1 + b) * (1 + c) - 1) * q) by ring.
      rewrite Rabs_mult, (Rabs_pos_eq q) by lra. apply Rmult_le_compat_r; lra. }
    assert (Her : Rabs (e * B2R r) <= (1 + / 100) * q).
    { replace (e * B2R r) with ((e * B2R r - q) + q) by ring. eapply Rle_trans; [apply Rabs_triang|]. rewrite (Rabs_pos_eq q) by lra.
      assert (((1 + / 50) * al + 5 * ulp1) * q <= / 100 * q) by (apply Rmult_le_compat_r; lra). lra. }
    destruct (product_error (p_exp P x) r Fe Fr) as [Fp Ep].
    { fold e. eapply Rle_trans; [exact Her|]. apply Rle_trans with (bpow radix2 1); [change (bpow radix2 1) with 2; lra|apply bpow_le; lia]. }
    fold e in Ep. split; [exact Fp|]. split; [|exact Hq].
    fold p in Ep. replace (B2R p - q) with ((B2R p - e * B2R r) + (e * B2R r - q)) by ring. eapply Rle_trans; [apply Rabs_triang|].
    assert (Huer : ulp1 * Rabs (e * B2R r) <= ulp1 * ((1 + / 100) * q)) by (apply Rmult_le_compat_l; lra).
    assert (Huq : 0 <= ulp1 * q) by (apply Rmult_le_pos; lra).
    assert (Hnuq : ulp1 * q <= INR n * (ulp1 * q)) by (rewrite <- (Rmult_1_l (ulp1 * q)) at 1; apply Rmult_le_compat_r; lra).
    change (-1074)%Z with (-1075 + 1)%Z. rewrite bpow_two. fold eta1.
    replace (((1 + / 50) * al + 5 * ulp1) * q) with ((1 + / 50) * (3 * (INR n * (ulp1 * q)) + 3 * (ulp1 * q)) + 5 * (ulp1 * q)) in Herq by (unfold al; ring).
    replace ((4 * INR n + 11) * ulp1 * q) with (4 * (INR n * (ulp1 * q)) + 11 * (ulp1 * q)) by ring.
    lra.
Qed.

End Row.
End Softmax.

Theorem residual_error (P : platform) (td : @training_data (f64_ops P)) r k i (y : list (@F (f64_ops P))) c (s v : list (@F (f64_ops P))) j :
  accurate_exp P ->
  td_size td = length (labels (td_data td)) -> length (td_labels td) = length (labels (td_data td)) ->
  calculate_residuals_multi_class td = Ok r ->
  nth_error (labels (td_data td)) i = Some y -> nth_error (td_labels td) i = Some s -> nth_error r i = Some v ->
  one_hot k c y -> (Z.of_nat k <= 2 ^ 40)%Z ->
  Forall (fun x : f64 => is_finite x = true /\ Rabs (B2R x) <= 300) s -> (j < k)%nat ->
  exists x : f64, nth_error v j = Some x /\ is_finite x = true /\
    Rabs (B2R x - ((if (N.of_nat j =? c)%N then 1 else 0) - probability (map B2R s) j)) <= bpow radix2 (-51) * INR (k + 4).
Proof.
  intros Hexp HS HL E Hy Hs Hv HO Hk' HB Hj. apply calculate_residuals_multi_class_eq in E as [HF ->]; auto.
  assert (Hs' : nth_error (map softmax (td_labels td)) i = Some (softmax s)) by now rewrite nth_error_map, Hs.
  rewrite (nth_error_differences _ _ _ _ _ _ Hy Hs') in Hv. injection Hv as <-.
  assert (L : length y = length s) by (eapply (proj2 (proj1 (Forall2_nth _ _ _) HF)); eauto).
  destruct HO as (Hc & Ly & HO). pose proof (HO j Hj) as Hyj.
  assert (Hls : length s = k) by congruence.
  destruct (nth_error s j) as [x|] eqn:Ex; [|apply (@nth_error_None (@F (f64_ops P))) in Ex; lia].
  assert (Hin : In x s) by (eapply nth_error_In; exact Ex).
  assert (Hk1 : (1 <= length s)%nat) by lia. assert (Hk2 : (Z.of_nat (length s) <= 2 ^ 40)%Z) by (rewrite Hls; exact Hk').
  destruct (probability_error Hexp s HB Hk1 Hk2 x Hin) as (Fp & Ep & Hq).
  set (total := fold_left (Bplus mode_NE) (map (p_exp P) s) (B754_zero (p_sum_from_negative_zero P))) in *.
  set (p := Bmult mode_NE (p_exp P x) (Bdiv mode_NE Bone total)) in *.
  set (q := exp (B2R x) / Rsum (map (fun x => exp (B2R x)) s)) in *.
  assert (Eq : probability (map B2R s) j = q).
  { unfold probability, q. rewrite (map_map B2R exp). f_equal. f_equal.
    rewrite (nth_error_nth (map B2R s) j 0 (x := B2R x)); [reflexivity|]. rewrite nth_error_map. change (option_map B2R (@nth_error (@F (f64_ops P)) s j) = Some (B2R x)). now rewrite Ex. }
  assert (Esp : nth_error (softmax s) j = Some (p : @F (f64_ops P))) by (unfold softmax; rewrite nth_error_map, Ex; reflexivity).
  set (yj := if (N.of_nat j =? c)%N then (f1 : @F (f64_ops P)) else f0) in *.
  exists (Bminus mode_NE yj p). split.
  { assert (Ec : nth_error (combine y (softmax s)) j = Some (yj, p : @F (f64_ops P))).
    { rewrite nth_error_combine, Hyj, Esp. reflexivity. }
    exact (eq_trans (nth_error_map _ _ _) (f_equal (option_map _) Ec)). }
  pose proof ulp1_pos as Hu. pose proof ulp1_small as Hu'. pose proof eta1_pos as He.
  set (o := if (N.of_nat j =? c)%N then 1 else 0) in *.
  assert (Hyv : is_finite (yj : f64) = true /\ B2R (yj : f64) = o).
  { unfold yj, o. destruct (_ =? _)%N.
    - split; [reflexivity|exact (Bone_correct 53 1024 _ _)].
    - split; reflexivity. }
  destruct Hyv as [Fy Vy]. assert (Ho : 0 <= o <= 1) by (unfold o; destruct (_ =? _)%N; lra).
  assert (Hls' : @length f64 s = k) by exact Hls. rewrite Hls' in Ep. assert (Hk1' : 1 <= INR k) by (apply (le_INR 1); lia).
  pose proof (count_small k Hk') as Hck.
  set (al := (4 * INR k + 11) * ulp1) in *. assert (Hal : 0 <= al <= / 1000) by (unfold al; split; [apply Rmult_le_pos; lra|lra]).
  assert (Halq : al * q <= al) by (rewrite <- (Rmult_1_r al) at 2; apply Rmult_le_compat_l; lra).
  assert (Hsmall : bpow radix2 (-1074) <= / 1000).
  { apply Rle_trans with (bpow radix2 (-13)); [apply bpow_le; lia|]. change (bpow radix2 (-13)) with (/ 8192). lra. }
  assert (Hp : Rabs (B2R p) <= 1 + / 100).
  { replace (B2R p) with ((B2R p - q) + q) by ring. eapply Rle_trans; [apply Rabs_triang|]. rewrite (Rabs_pos_eq q) by lra. lra. }
  assert (Hd : Rabs (B2R (yj : f64) - B2R p) <= 3).
  { rewrite Vy. unfold Rminus. eapply Rle_trans; [apply Rabs_triang|]. rewrite Rabs_Ropp, (Rabs_pos_eq o) by lra. lra. }
  destruct (minus_value yj p Fy Fp) as [Fm Vm].
  { eapply pow_le_emax with (e := 2%Z); [lia| |lia]. change (bpow radix2 2) with 4. lra. }
  split; [exact Fm|]. rewrite Vm, Eq. pose proof (rnd_error (B2R (yj : f64) - B2R p)) as Hr. rewrite Vy in *.
  assert (Hdd : Rabs (o - B2R p) <= 1 + / 50).
  { destruct (Rabs_le_inv _ _ Ep) as [A B]. apply Rabs_le. lra. }
  replace (rnd (o - B2R p) - (o - q)) with ((rnd (o - B2R p) - (o - B2R p)) - (B2R p - q)) by ring.
  unfold Rminus at 1. eapply Rle_trans; [apply Rabs_triang|]. rewrite Rabs_Ropp.
  assert (ulp1 * Rabs (o - B2R p) <= ulp1 * (1 + / 50)) by (apply Rmult_le_compat_l; lra).
  assert (Hee : bpow radix2 (-1074) + eta1 <= / 100 * ulp1).
  { assert (bpow radix2 (-1074) = 2 * eta1) by (change (-1074)%Z with (-1075 + 1)%Z; rewrite bpow_two; reflexivity).
    assert (1024 * eta1 <= ulp1) by (change 1024 with (bpow radix2 10); unfold eta1, ulp1; rewrite <- bpow_plus; apply bpow_le; lia). lra. }
  rewrite plus_INR. replace (INR 4) with 4 by (cbn; ring).
  change (-51)%Z with (-53 + 1 + 1)%Z. rewrite !bpow_two. fold ulp1. unfold al in *. lra.
Qed.

(* ------------------------------------------------------------------ *)
(** ** A platform with correctly rounded functions *)

(** The binary64 number nearest to a real. *)
Definition nearest (x : R) : f64 := binary_normalize 53 1024 _ _ mode_NE (ZnearestE (scaled_mantissa radix2 fexp64 x)) (cexp radix2 fexp64 x) false.

Lemma nearest_value x : Rabs (rnd x) < bpow radix2 1024 -> is_finite (nearest x) = true /\ B2R (nearest x) = rnd x.
Proof.
  intros H. unfold nearest.
  pose proof (binary_normalize_correct 53 1024 _ _ mode_NE (ZnearestE (scaled_mantissa radix2 fexp64 x)) (cexp radix2 fexp64 x) false) as C.
  cbv zeta in C. cbn [round_mode] in C.
  change (F2R (Float radix2 (ZnearestE (scaled_mantissa radix2 fexp64 x)) (cexp radix2 fexp64 x))) with (rnd x) in C.
  assert (Er : rnd (rnd x) = rnd x) by (apply rnd_format, generic_format_round; typeclasses eauto).
  rewrite Er in C. rewrite Rlt_bool_true in C by exact H. tauto.
Qed.

Definition rounded_platform : platform := mkPlatform (fun x => nearest (exp (B2R x))) (fun x => Bmult mode_NE x x) false.

Theorem rounded_accurate : accurate_exp rounded_platform /\ accurate_square rounded_platform.
Proof.
  split; [|now apply product_is_accurate].
  intros x Fx Hx. apply Rabs_le_inv in Hx. pose proof (exp_300 (B2R x) ltac:(lra)) as H1. pose proof (exp_m300 (B2R x) ltac:(lra)) as H2.
  pose proof (exp_pos (B2R x)) as H3. cbn [p_exp rounded_platform].
  destruct (nearest_value (exp (B2R x))) as [F1 V1].
  { eapply pow_le_emax with (e := 600%Z); [lia| |lia]. rewrite Rabs_pos_eq by lra. exact H1. }
  split; [exact F1|]. rewrite V1. pose proof (rnd_error (exp (B2R x))) as Hr. rewrite (Rabs_pos_eq (exp _)) in Hr by lra.
  change (-52)%Z with (-53 + 1)%Z. rewrite bpow_two. fold ulp1.
  assert (eta1 <= ulp1 * exp (B2R x)); [|lra].
  apply Rle_trans with (ulp1 * bpow radix2 (-600)); [unfold eta1, ulp1; rewrite <- bpow_plus; apply bpow_le; lia|].
  apply Rmult_le_compat_l; [left; exact ulp1_pos|exact H2].
Qed.
