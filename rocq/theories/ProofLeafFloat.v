(** Classification leaf outputs in binary64: when they are finite and how accurate they then are. *)
From Coq Require Import Reals Lra Lia ZArith.
From Flocq Require Import Core Relative.
From Flocq Require Import IEEE754.BinarySingleNaN.
From Verif Require Import Base Num F64 SpecExact ProofReal ProofRound ProofError ProofPredict ProofMse.
Local Open Scope R_scope.

Definition dterm64 (x : f64) : f64 := Bmult mode_NE (Babs x) (Bminus mode_NE Bone (Babs x)).
Definition sum64 (l : list f64) : f64 := fold_left (Bplus mode_NE) l (B754_zero false).

Lemma Bone_1 : B2R (Bone : f64) = 1.
Proof. apply Bone_correct. Qed.

Lemma below_one (x : f64) : B2R x < 1 -> B2R x <= 1 - ulp1.
Proof.
  intros H. assert (E : pred radix2 fexp64 1 = 1 - ulp1).
  { change 1 with (bpow radix2 0) at 1. rewrite pred_bpow. reflexivity. }
  rewrite <- E. apply pred_ge_gt; [typeclasses eauto|apply generic_format_B2R|exact ProofScoreF64.format_one|exact H].
Qed.

(** Residual entries. *)
Definition residual_like (x : f64) : Prop :=
  is_finite x = true /\ Rabs (B2R x) <= 1 /\ (B2R x = 0 \/ bpow radix2 (-900) <= Rabs (B2R x)).

Definition hill (x : f64) : R := Rabs (B2R x) * (1 - Rabs (B2R x)).

Lemma hill_nonneg x : residual_like x -> 0 <= hill x <= Rabs (B2R x).
Proof.
  intros (_ & H & _). pose proof (Rabs_pos (B2R x)) as H0. unfold hill. split; [apply Rmult_le_pos; lra|].
  apply Rle_trans with (Rabs (B2R x) * 1); [apply Rmult_le_compat_l; lra|lra].
Qed.

Lemma hill_large x : residual_like x -> hill x <> 0 -> bpow radix2 (-954) <= hill x.
Proof.
  intros (Fx & H & Hz) Hn. unfold hill in *. set (a := Rabs (B2R x)) in *.
  assert (Ha : bpow radix2 (-900) <= a).
  { destruct Hz as [Hz|Hz]; auto. exfalso. apply Hn. unfold a. rewrite Hz, Rabs_R0. ring. }
  assert (Ha1 : a <= 1 - ulp1).
  { unfold a. rewrite <- B2R_Babs. apply below_one. rewrite B2R_Babs. fold a. destruct (Rlt_or_le a 1) as [?|?]; auto. exfalso. apply Hn. replace a with 1 by lra. ring. }
  apply Rle_trans with (bpow radix2 (-900) * ulp1).
  - unfold ulp1. rewrite <- bpow_plus. apply bpow_le. lia.
  - apply Rmult_le_compat; [apply bpow_ge_0|left; exact ulp1_pos|exact Ha|lra].
Qed.

(** One term of the denominator. *)
Lemma dterm_error x : residual_like x ->
  is_finite (dterm64 x) = true /\ Rabs (B2R (dterm64 x) - hill x) <= 3 * ulp1 * hill x.
Proof.
  intros Hx. pose proof (hill_nonneg x Hx) as Hh. pose proof Hx as (Fx & H & Hz). pose proof ulp1_pos as Hu. pose proof ulp1_small as Hu'.
  set (a := Rabs (B2R x)) in *. assert (Va : B2R (Babs x) = a) by apply B2R_Babs. assert (Fa : is_finite (Babs x) = true) by (now rewrite is_finite_Babs).
  assert (Ha0 : 0 <= a) by apply Rabs_pos.
  destruct (minus_value Bone (Babs x) eq_refl Fa) as [Fw Vw].
  { rewrite Bone_1, Va. eapply pow_le_emax with (e := 0%Z); [lia| |lia]. change (bpow radix2 0) with 1. rewrite Rabs_pos_eq by lra. lra. }
  rewrite Bone_1, Va in Vw. set (w := Bminus mode_NE Bone (Babs x)) in *.
  destruct (product_error (Babs x) w Fa Fw) as [Ft Et].
  { rewrite Va, Vw. apply Rle_trans with 1; [|change 1 with (bpow radix2 0); apply bpow_le; lia].
    assert (Hr : Rabs (rnd (1 - a)) <= 1) by (apply rnd_le_format; [exact ProofScoreF64.format_one|rewrite Rabs_pos_eq; lra]).
    rewrite Rabs_mult, (Rabs_pos_eq a) by lra. apply Rle_trans with (1 * 1); [apply Rmult_le_compat; [exact Ha0|apply Rabs_pos|exact H|exact Hr]|lra]. }
  fold (dterm64 x) in Ft, Et. change (Bmult mode_NE (Babs x) w) with (dterm64 x) in Ft, Et. split; [exact Ft|].
  rewrite Va, Vw in Et.
  destruct (Req_dec (hill x) 0) as [E0|E0].
  - rewrite E0. assert (Z : a * rnd (1 - a) = 0).
    { unfold hill in E0. fold a in E0. apply Rmult_integral in E0 as [E0|E0]; [rewrite E0; ring|rewrite E0, rnd_0; ring]. }
    destruct (mult_value (Babs x) w Fa Fw) as [_ V].
    { rewrite Va, Vw, Z, rnd_0, Rabs_R0. apply bpow_gt_0. }
    change (Bmult mode_NE (Babs x) w) with (dterm64 x) in V. rewrite V, Va, Vw, Z, rnd_0, Rminus_0_r, Rabs_R0. lra.
  - pose proof (hill_large x Hx E0) as HL. 
    assert (E : hill x = a * (1 - a)) by reflexivity.
    assert (Ha1 : a <= 1 - ulp1).
    { rewrite <- Va. apply below_one. rewrite Va. destruct (Rlt_or_le a 1) as [?|?]; auto. exfalso. apply E0. rewrite E. replace a with 1 by lra. ring. }
    pose proof (rnd_error (1 - a)) as Hr. rewrite (Rabs_pos_eq (1 - a)) in Hr by lra.
    assert (He : eta1 <= / 1000 * (ulp1 * (1 - a))).
    { apply Rle_trans with (bpow radix2 (-10) * (ulp1 * ulp1)); [unfold ulp1, eta1; rewrite <- !bpow_plus; apply bpow_le; lia|].
      apply Rmult_le_compat; [apply bpow_ge_0|apply Rmult_le_pos; lra|change (bpow radix2 (-10)) with (/ 1024); lra|apply Rmult_le_compat_l; lra]. }
    assert (Hw : Rabs (rnd (1 - a) - (1 - a)) <= (1 + / 1000) * (ulp1 * (1 - a))) by lra.
    assert (Hprod : Rabs (a * rnd (1 - a) - hill x) <= (1 + / 1000) * (ulp1 * hill x)).
    { rewrite E. replace (a * rnd (1 - a) - a * (1 - a)) with (a * (rnd (1 - a) - (1 - a))) by ring.
      rewrite Rabs_mult, (Rabs_pos_eq a) by lra.
      replace ((1 + / 1000) * (ulp1 * (a * (1 - a)))) with (a * ((1 + / 1000) * (ulp1 * (1 - a)))) by ring. apply Rmult_le_compat_l; lra. }
    assert (He2 : eta1 <= / 1000 * (ulp1 * hill x)).
    { apply Rle_trans with (bpow radix2 (-10) * (ulp1 * bpow radix2 (-954))); [unfold ulp1, eta1; rewrite <- !bpow_plus; apply bpow_le; lia|].
      apply Rmult_le_compat; [apply bpow_ge_0|apply Rmult_le_pos; [lra|apply bpow_ge_0]|change (bpow radix2 (-10)) with (/ 1024); lra|apply Rmult_le_compat_l; lra]. }
    assert (Hlu : ulp1 * (ulp1 * hill x) <= / 1000000 * (ulp1 * hill x)).
    { apply Rmult_le_compat_r; [apply Rmult_le_pos; lra|lra]. }
    assert (Huh : 0 <= ulp1 * hill x) by (apply Rmult_le_pos; lra).
    assert (Hab : Rabs (a * rnd (1 - a)) <= (1 + / 100) * hill x).
    { replace (a * rnd (1 - a)) with ((a * rnd (1 - a) - hill x) + hill x) by ring. eapply Rle_trans; [apply Rabs_triang|].
      rewrite (Rabs_pos_eq (hill x)) by lra.
      assert (ulp1 * hill x <= / 1000000 * hill x) by (apply Rmult_le_compat_r; lra). lra. }
    assert (Hua : ulp1 * Rabs (a * rnd (1 - a)) <= ulp1 * ((1 + / 100) * hill x)) by (apply Rmult_le_compat_l; lra).
    replace (B2R (dterm64 x) - hill x) with ((B2R (dterm64 x) - a * rnd (1 - a)) + (a * rnd (1 - a) - hill x)) by ring.
    eapply Rle_trans; [apply Rabs_triang|]. lra.
Qed.

(** Sums of zeros. *)
Lemma zeros_sum (l : list f64) : forall a : f64, is_finite a = true -> B2R a = 0 -> Forall (fun x : f64 => is_finite x = true /\ B2R x = 0) l ->
  is_finite (fold_left (Bplus mode_NE) l a) = true /\ B2R (fold_left (Bplus mode_NE) l a) = 0.
Proof.
  induction l as [|x l IH]; intros a Fa Va Hl; cbn [fold_left]; auto. inversion Hl as [|? ? [Fx Vx] Hl']; subst.
  assert (E : B2R a + B2R x = 0) by lra.
  destruct (plus_value a x Fa Fx) as [F V]; [rewrite E, rnd_0, Rabs_R0; apply bpow_gt_0|]. rewrite E, rnd_0 in V. now apply IH.
Qed.

Section Leaf.
Context (l : list f64) (Hl : Forall residual_like l) (Hn : (Z.of_nat (length l) <= 2 ^ 40)%Z).

Let N := Rsum (map B2R l).
Let T := Rsum (map (fun x => Rabs (B2R x)) l).
Let D := Rsum (map hill l).
Let n := INR (length l).

Lemma like x : In x l -> residual_like x.
Proof. rewrite Forall_forall in Hl. auto. Qed.

Lemma D_bounds : 0 <= D <= T.
Proof.
  unfold D, T. split; [apply Rsum_nonneg; intros y Hy; apply in_map_iff in Hy as (x & <- & Hx); now apply hill_nonneg, like|].
  apply Rsum_map_le. intros x Hx. now apply hill_nonneg, like.
Qed.
Lemma N_bound : Rabs N <= T.
Proof.
  unfold N, T. clear. induction l as [|x l' IH]; cbn [map]; rewrite ?Rsum_cons; [cbn; rewrite Rabs_R0; lra|].
  eapply Rle_trans; [apply Rabs_triang|]. lra.
Qed.
Lemma T_bound : T <= bpow radix2 40.
Proof.
  apply Rle_trans with (INR (length l) * 1).
  - unfold T. rewrite <- (Rsum_map_const 1 l). apply Rsum_map_le. intros x Hx. destruct (like x Hx) as (_ & H & _). exact H.
  - rewrite Rmult_1_r, INR_IZR_INZ, <- (IZR_Zpower radix2 40) by lia. apply IZR_le. exact Hn.
Qed.

Lemma D_zero : D = 0 -> Forall (fun x => hill x = 0) l.
Proof.
  intros E. rewrite Forall_forall. intros x Hx. apply (Rsum_zero_all (map hill l)); [|exact E|now apply in_map].
  intros y Hy. apply in_map_iff in Hy as (z & <- & Hz). now apply hill_nonneg, like.
Qed.
Lemma D_large : D <> 0 -> bpow radix2 (-954) <= D.
Proof.
  unfold D. intros H. clear Hn. induction l as [|x l' IH]; [exfalso; apply H; reflexivity|]. cbn [map] in *. rewrite Rsum_cons in *.
  inversion Hl as [|? ? Hx Hl']; subst. pose proof (hill_nonneg x Hx).
  assert (0 <= Rsum (map hill l')).
  { apply Rsum_nonneg. intros y Hy. apply in_map_iff in Hy as (z & <- & Hz). rewrite Forall_forall in Hl'. now apply hill_nonneg, Hl'. }
  destruct (Req_dec (hill x) 0) as [E|E]; [|pose proof (hill_large x Hx E); lra].
  destruct (Req_dec (Rsum (map hill l')) 0) as [E'|E']; [lra|]. specialize (IH Hl' E'). lra.
Qed.

Lemma numerator_error : D <> 0 -> is_finite (sum64 l) = true /\ Rabs (B2R (sum64 l) - N) <= 4 * (n * (ulp1 * T)).
Proof.
  intros HD. pose proof D_bounds as HDT. pose proof (D_large HD) as HDL. pose proof T_bound as HT. pose proof ulp1_pos as Hu. pose proof eta1_pos as He.
  assert (HT' : T <= bpow radix2 1000) by (eapply Rle_trans; [exact HT|apply bpow_le; lia]).
  pose proof (accumulate_relative 0 T eta1 ltac:(lra) (conj (Rle_trans _ _ _ (proj1 HDT) (proj2 HDT)) HT') (conj (Rle_refl _) eta1_le_900)
    (map (fun x => (x, B2R x)) l) (B754_zero false) 0 0 0 eq_refl) as A.
  cbn [B2R] in A. rewrite Rminus_0_r, Rabs_R0 in A. cbn [INR] in A. specialize (A ltac:(lra) ltac:(lra)).
  rewrite map_map in A. cbn [snd] in A. fold T in A. specialize (A ltac:(lra)). rewrite map_length in A. cbn [Nat.add] in A.
  specialize (A Hn).
  assert (HF : Forall (fun p : f64 * R => is_finite (fst p) = true /\ Rabs (B2R (fst p) - snd p) <= 0 * Rabs (snd p) + eta1) (map (fun x => (x, B2R x)) l)).
  { rewrite Forall_map. eapply Forall_impl; [|exact Hl]. intros x (Fx & _). cbn [fst snd]. split; auto. rewrite Rminus_diag_eq, Rabs_R0 by reflexivity. lra. }
  specialize (A HF). cbv zeta in A. rewrite (fold_left_pairs (Bplus mode_NE) fst) in A. rewrite !map_map in A. cbn [fst snd] in A. rewrite map_id in A.
  fold (sum64 l) in A. destruct A as [F A]. split; [exact F|]. fold N in A. rewrite Rplus_0_l in A. fold n in A.
  assert (Hh : 3 * eta1 <= ulp1 * T).
  { apply Rle_trans with (ulp1 * bpow radix2 (-954)); [|apply Rmult_le_compat_l; lra].
    apply Rle_trans with (bpow radix2 2 * eta1); [change (bpow radix2 2) with 4; lra|]. unfold ulp1, eta1. rewrite <- !bpow_plus. apply bpow_le. lia. }
  assert (Hn0 : 0 <= n) by apply pos_INR.
  eapply Rle_trans; [exact A|]. rewrite Rmult_0_l, Rplus_0_l.
  replace (4 * (n * (ulp1 * T))) with (n * (3 * ulp1 * T + ulp1 * T)) by ring. apply Rmult_le_compat_l; lra.
Qed.

Lemma denominator_error : D <> 0 ->
  is_finite (sum64 (map dterm64 l)) = true /\ Rabs (B2R (sum64 (map dterm64 l)) - D) <= (4 * n + 3) * (ulp1 * D).
Proof.
  intros HD. pose proof D_bounds as HDT. pose proof (D_large HD) as HDL. pose proof T_bound as HT. pose proof ulp1_pos as Hu. pose proof eta1_pos as He.
  pose proof ulp1_small as Hu'.
  assert (HD' : D <= bpow radix2 1000) by (eapply Rle_trans; [eapply Rle_trans; [apply HDT|exact HT]|apply bpow_le; lia]).
  assert (EA : Rsum (map (fun x => Rabs (hill x)) l) = D).
  { unfold D. apply Rsum_map_ext. intros x Hx. apply Rabs_pos_eq. now apply hill_nonneg, like. }
  pose proof (accumulate_relative (3 * ulp1) D eta1 ltac:(lra) (conj (proj1 HDT) HD') (conj (Rle_refl _) eta1_le_900)
    (map (fun x => (dterm64 x, hill x)) l) (B754_zero false) 0 0 0 eq_refl) as A.
  cbn [B2R] in A. rewrite Rminus_0_r, Rabs_R0 in A. cbn [INR] in A. specialize (A ltac:(lra) ltac:(lra)).
  rewrite map_map in A. cbn [snd] in A. rewrite EA in A. specialize (A ltac:(lra)). rewrite map_length in A. cbn [Nat.add] in A.
  specialize (A Hn).
  assert (HF : Forall (fun p : f64 * R => is_finite (fst p) = true /\ Rabs (B2R (fst p) - snd p) <= 3 * ulp1 * Rabs (snd p) + eta1) (map (fun x => (dterm64 x, hill x)) l)).
  { rewrite Forall_map. eapply Forall_impl; [|exact Hl]. intros x Hx. cbn [fst snd]. destruct (dterm_error x Hx) as [F E]. split; auto.
    rewrite (Rabs_pos_eq (hill x)) by (now apply hill_nonneg). lra. }
  specialize (A HF). cbv zeta in A. rewrite (fold_left_pairs (Bplus mode_NE) fst) in A. rewrite !map_map in A. cbn [fst snd] in A.
  fold (sum64 (map dterm64 l)) in A. destruct A as [F A]. split; [exact F|]. fold D in A. rewrite Rplus_0_l in A. fold n in A.
  assert (Hh : 3 * eta1 <= ulp1 * D).
  { apply Rle_trans with (ulp1 * bpow radix2 (-954)); [|apply Rmult_le_compat_l; lra].
    apply Rle_trans with (bpow radix2 2 * eta1); [change (bpow radix2 2) with 4; lra|]. unfold ulp1, eta1. rewrite <- !bpow_plus. apply bpow_le. lia. }
  assert (Hn0 : 0 <= n) by apply pos_INR.
  eapply Rle_trans; [exact A|]. rewrite Rplus_0_l.
  replace ((4 * n + 3) * (ulp1 * D)) with (3 * ulp1 * D + n * (3 * ulp1 * D + ulp1 * D)) by ring. apply Rplus_le_compat_l, Rmult_le_compat_l; lra.
Qed.

(** The quotient. *)
Lemma quotient_error : D <> 0 -> l <> [] ->
  let q := Bdiv mode_NE (sum64 l) (sum64 (map dterm64 l)) in
  is_finite q = true /\ Rabs (B2R q - N / D) <= (9 * n + 6) * (ulp1 * (T / D)) /\ Rabs (B2R q) <= bpow radix2 996.
Proof.
  intros HD Hne q. destruct (numerator_error HD) as [FN EN]. destruct (denominator_error HD) as [FD ED].
  pose proof D_bounds as HDT. pose proof (D_large HD) as HDL. pose proof T_bound as HT. pose proof N_bound as HNT.
  pose proof ulp1_pos as Hu. pose proof eta1_pos as He. pose proof ulp1_small as Hu'. pose proof (bpow_gt_0 radix2 (-954)) as Hp.
  pose proof (count_small (length l) Hn) as Hc. fold n in Hc.
  assert (Hn1 : 1 <= n). { unfold n. destruct l; [congruence|]. cbn [length]. rewrite S_INR. pose proof (pos_INR (length l0)). lra. }
  set (nn := B2R (sum64 l)) in *. set (dd := B2R (sum64 (map dterm64 l))) in *.
  assert (Dpos : 0 < D) by lra. set (V := T / D).
  assert (HTV : T = V * D) by (unfold V; field; lra).
  assert (HV1 : 1 <= V). { unfold V. apply Rmult_le_reg_r with D; [lra|]. unfold Rdiv. rewrite Rmult_assoc, Rinv_l by lra. lra. }
  assert (HVb : V <= bpow radix2 994).
  { unfold V. apply Rle_trans with (bpow radix2 40 * bpow radix2 954); [|rewrite <- bpow_plus; apply bpow_le; lia].
    apply Rmult_le_compat; [lra|left; apply Rinv_0_lt_compat; lra|exact HT|].
    replace (bpow radix2 954) with (/ bpow radix2 (-954)) by (rewrite <- bpow_opp; reflexivity). apply Rinv_le; lra. }
  set (b := (4 * n + 3) * ulp1). assert (Hb : 0 <= b <= / 1000).
  { unfold b. split; [apply Rmult_le_pos; lra|]. replace ((4 * n + 3) * ulp1) with (4 * (ulp1 * n) + 3 * ulp1) by ring. lra. }
  assert (ED' : Rabs (dd - D) <= b * D) by (unfold b; rewrite Rmult_assoc; exact ED).
  assert (HbD : b * D <= / 1000 * D) by (apply Rmult_le_compat_r; lra).
  assert (Hdd : (1 - / 1000) * D <= dd <= (1 + / 1000) * D) by (apply Rabs_le_inv in ED'; lra).
  assert (ddpos : 0 < dd) by lra.
  set (z := / dd). assert (Hz0 : 0 < z) by (apply Rinv_0_lt_compat; exact ddpos).
  assert (HzD : z * D <= 1 + / 900).
  { unfold z. apply Rmult_le_reg_l with dd; [exact ddpos|]. rewrite <- Rmult_assoc, Rinv_r by lra. lra. }
  assert (Hq : Rabs (nn / dd - N / D) <= (1 + / 900) * ((8 * n + 3) * (ulp1 * V))).
  { replace (nn / dd - N / D) with (((nn - N) * D - N * (dd - D)) / D * z) by (unfold z; field; lra).
    rewrite Rabs_mult, (Rabs_pos_eq z) by lra.
    assert (H1 : Rabs (((nn - N) * D - N * (dd - D)) / D) <= (8 * n + 3) * (ulp1 * T)).
    { unfold Rdiv. rewrite Rabs_mult, (Rabs_pos_eq (/ D)) by (left; apply Rinv_0_lt_compat; lra).
      apply Rmult_le_reg_r with D; [lra|]. rewrite Rmult_assoc, Rinv_l, Rmult_1_r by lra.
      eapply Rle_trans; [apply Rabs_triang|]. rewrite Rabs_Ropp, !Rabs_mult, (Rabs_pos_eq D) by lra.
      assert (Rabs (nn - N) * D <= 4 * (n * (ulp1 * T)) * D) by (apply Rmult_le_compat_r; lra).
      assert (Rabs N * Rabs (dd - D) <= T * (b * D)) by (apply Rmult_le_compat; try apply Rabs_pos; lra).
      unfold b in *. replace ((8 * n + 3) * (ulp1 * T) * D) with (4 * (n * (ulp1 * T)) * D + T * ((4 * n + 3) * ulp1 * D)) by ring. lra. }
    apply Rle_trans with ((8 * n + 3) * (ulp1 * T) * z); [apply Rmult_le_compat_r; lra|].
    rewrite HTV. replace ((8 * n + 3) * (ulp1 * (V * D)) * z) with (z * D * ((8 * n + 3) * (ulp1 * V))) by ring.
    apply Rmult_le_compat_r; [|lra]. apply Rmult_le_pos; [lra|apply Rmult_le_pos; lra]. }
  assert (HND : Rabs (N / D) <= V).
  { unfold Rdiv, V. rewrite Rabs_mult, (Rabs_pos_eq (/ D)) by (left; apply Rinv_0_lt_compat; lra). apply Rmult_le_compat_r; [left; apply Rinv_0_lt_compat|]; lra. }
  assert (HuV : 0 <= ulp1 * V) by (apply Rmult_le_pos; lra).
  assert (HnV : ulp1 * V <= n * (ulp1 * V)) by (rewrite <- (Rmult_1_l (ulp1 * V)) at 1; apply Rmult_le_compat_r; lra).
  assert (Hsm : n * (ulp1 * V) <= / 8192 * V) by (rewrite <- Rmult_assoc, (Rmult_comm n); apply Rmult_le_compat_r; lra).
  assert (Hnd : Rabs (nn / dd) <= (1 + / 100) * V).
  { replace (nn / dd) with ((nn / dd - N / D) + N / D) by ring. eapply Rle_trans; [apply Rabs_triang|].
    replace ((8 * n + 3) * (ulp1 * V)) with (8 * (n * (ulp1 * V)) + 3 * (ulp1 * V)) in Hq by ring. lra. }
  assert (P996 : 2 * bpow radix2 994 = bpow radix2 995) by (change 995%Z with (994 + 1)%Z; now rewrite bpow_two).
  assert (P997 : 2 * bpow radix2 995 = bpow radix2 996) by (change 996%Z with (995 + 1)%Z; now rewrite bpow_two).
  assert (Hbig : Rabs (nn / dd) <= bpow radix2 995) by lra.
  destruct (div_value (sum64 l) (sum64 (map dterm64 l)) FN) as [Fq Vq].
  { fold dd. lra. } { fold nn dd. eapply pow_le_emax; [|exact Hbig|]; lia. }
  fold q in Fq, Vq. fold nn dd in Vq. split; [exact Fq|]. pose proof (rnd_error (nn / dd)) as Hr.
  assert (Hud : ulp1 * Rabs (nn / dd) <= ulp1 * ((1 + / 100) * V)) by (apply Rmult_le_compat_l; lra).
  assert (Hev : eta1 <= / 1000 * (ulp1 * V)).
  { apply Rle_trans with (bpow radix2 (-10) * (ulp1 * 1)); [|apply Rmult_le_compat; [apply bpow_ge_0|lra|change (bpow radix2 (-10)) with (/ 1024); lra|apply Rmult_le_compat_l; lra]].
    rewrite Rmult_1_r. unfold ulp1, eta1. rewrite <- bpow_plus. apply bpow_le. lia. }
  split.
  - rewrite Vq. replace (rnd (nn / dd) - N / D) with ((rnd (nn / dd) - nn / dd) + (nn / dd - N / D)) by ring.
    eapply Rle_trans; [apply Rabs_triang|].
    replace ((8 * n + 3) * (ulp1 * V)) with (8 * (n * (ulp1 * V)) + 3 * (ulp1 * V)) in Hq by ring.
    replace ((9 * n + 6) * (ulp1 * V)) with (9 * (n * (ulp1 * V)) + 6 * (ulp1 * V)) by ring. lra.
  - rewrite Vq. eapply Rle_trans; [apply rnd_le_format; [apply (ProofScoreF64.format_pow 995); lia|exact Hbig]|apply bpow_le; lia].
Qed.

(** The factor (k-1)/k. *)
Lemma factor_error k : (2 <= k)%nat -> (Z.of_nat k <= 2 ^ 40)%Z ->
  let c := Bdiv mode_NE (Bminus mode_NE (f64_of_Z (Z.of_nat k)) Bone) (f64_of_Z (Z.of_nat k)) in
  is_finite c = true /\ Rabs (B2R c - (INR k - 1) / INR k) <= 2 * ulp1 /\ / 2 <= B2R c <= 1.
Proof.
  intros Hk Hk' c. pose proof ulp1_pos as Hu. pose proof eta1_pos as He.
  destruct (of_Z_exact (Z.of_nat k) ltac:(lia)) as (Vk & Fk & _).
  assert (Hb1 : Bone = f64_of_Z 1) by reflexivity.
  assert (Em : Bminus mode_NE (f64_of_Z (Z.of_nat k)) Bone = f64_of_Z (Z.of_nat k - 1)) by (rewrite Hb1; apply minus_Z; lia).
  destruct (of_Z_exact (Z.of_nat k - 1) ltac:(lia)) as (Vm & Fm & _).
  assert (HR : 2 <= INR k) by (apply (le_INR 2); exact Hk).
  assert (Hc : / 2 <= (INR k - 1) / INR k <= 1).
  { split; apply Rmult_le_reg_r with (INR k); try lra; unfold Rdiv; rewrite ?Rmult_assoc, ?Rinv_l by lra; lra. }
  set (g := (INR k - 1) / INR k) in *. unfold c. rewrite Em. destruct (div_value (f64_of_Z (Z.of_nat k - 1)) (f64_of_Z (Z.of_nat k)) Fm) as [Fc Vc].
  { rewrite Vk. rewrite <- INR_IZR_INZ. lra. }
  { rewrite Vm, Vk, minus_IZR, <- INR_IZR_INZ. fold g. eapply pow_le_emax with (e := 0%Z); [lia| |lia]. change (bpow radix2 0) with 1. rewrite Rabs_pos_eq; lra. }
  split; [exact Fc|]. rewrite Vm, Vk, minus_IZR, <- INR_IZR_INZ in Vc. fold g in Vc. rewrite Vc. split.
  - pose proof (rnd_error g) as Hr. rewrite (Rabs_pos_eq g) in Hr by lra.
    assert (ulp1 * g <= ulp1 * 1) by (apply Rmult_le_compat_l; lra).
    pose proof eta1_small. pose proof (bpow_gt_0 radix2 100).
    assert (eta1 <= ulp1). { apply bpow_le. lia. } lra.
  - split.
    + replace (/ 2) with (rnd (/ 2)); [apply rnd_le; lra|]. apply rnd_format. change (/ 2) with (bpow radix2 (-1)). apply ProofScoreF64.format_pow; lia.
    + rewrite <- rnd_1. apply rnd_le. lra.
Qed.

Definition output64 (k : nat) : f64 :=
  Bmult mode_NE (Bdiv mode_NE (sum64 l) (sum64 (map dterm64 l)))
    (Bdiv mode_NE (Bminus mode_NE (f64_of_Z (Z.of_nat k)) Bone) (f64_of_Z (Z.of_nat k))).

Theorem output_error k : (2 <= k)%nat -> (Z.of_nat k <= 2 ^ 40)%Z -> D <> 0 -> l <> [] ->
  is_finite (output64 k) = true /\
  Rabs (B2R (output64 k) - N / D * ((INR k - 1) / INR k)) <= bpow radix2 (-49) * (n + 1) * (T / D).
Proof.
  intros Hk Hk' HD Hne. destruct (quotient_error HD Hne) as (Fq & Eq & Bq). destruct (factor_error k Hk Hk') as (Fc & Ec & Bc).
  set (q := Bdiv mode_NE (sum64 l) (sum64 (map dterm64 l))) in *.
  set (c := Bdiv mode_NE (Bminus mode_NE (f64_of_Z (Z.of_nat k)) Bone) (f64_of_Z (Z.of_nat k))) in *.
  pose proof ulp1_pos as Hu. pose proof eta1_pos as He. pose proof ulp1_small as Hu'.
  pose proof D_bounds as HDT. pose proof (D_large HD) as HDL. pose proof N_bound as HNT. pose proof (bpow_gt_0 radix2 (-954)) as Hp.
  pose proof (count_small (length l) Hn) as Hcn. fold n in Hcn.
  assert (Hn1 : 1 <= n). { unfold n. destruct l; [congruence|]. cbn [length]. rewrite S_INR. pose proof (pos_INR (length l0)). lra. }
  assert (Dpos : 0 < D) by lra. set (V := T / D) in *.
  assert (HV1 : 1 <= V). { unfold V. apply Rmult_le_reg_r with D; [lra|]. unfold Rdiv. rewrite Rmult_assoc, Rinv_l by lra. lra. }
  assert (HND : Rabs (N / D) <= V).
  { unfold Rdiv, V. rewrite Rabs_mult, (Rabs_pos_eq (/ D)) by (left; apply Rinv_0_lt_compat; lra). apply Rmult_le_compat_r; [left; apply Rinv_0_lt_compat|]; lra. }
  set (g := (INR k - 1) / INR k) in *.
  assert (HuV : 0 <= ulp1 * V) by (apply Rmult_le_pos; lra).
  assert (HnV : ulp1 * V <= n * (ulp1 * V)) by (rewrite <- (Rmult_1_l (ulp1 * V)) at 1; apply Rmult_le_compat_r; lra).
  assert (Hsm : n * (ulp1 * V) <= / 8192 * V) by (rewrite <- Rmult_assoc, (Rmult_comm n); apply Rmult_le_compat_r; lra).
  replace ((9 * n + 6) * (ulp1 * V)) with (9 * (n * (ulp1 * V)) + 6 * (ulp1 * V)) in Eq by ring.
  assert (HqV : Rabs (B2R q) <= (1 + / 100) * V).
  { replace (B2R q) with ((B2R q - N / D) + N / D) by ring. eapply Rle_trans; [apply Rabs_triang|]. lra. }
  assert (Hqc : Rabs (B2R q * B2R c) <= (1 + / 100) * V).
  { rewrite Rabs_mult, (Rabs_pos_eq (B2R c)) by lra. rewrite <- (Rmult_1_r ((1 + / 100) * V)). apply Rmult_le_compat; try apply Rabs_pos; lra. }
  destruct (product_error q c Fq Fc) as [Fo Eo].
  { rewrite Rabs_mult, (Rabs_pos_eq (B2R c)) by lra. apply Rle_trans with (bpow radix2 996 * 1).
    - apply Rmult_le_compat; try apply Rabs_pos; lra.
    - rewrite Rmult_1_r. apply bpow_le. lia. }
  split; [exact Fo|]. change (Bmult mode_NE q c) with (output64 k) in Eo.
  replace (B2R (output64 k) - N / D * g) with ((B2R (output64 k) - B2R q * B2R c) + ((B2R q - N / D) * B2R c + N / D * (B2R c - g))) by ring.
  eapply Rle_trans; [apply Rabs_triang|].
  assert (H1 : ulp1 * Rabs (B2R q * B2R c) <= ulp1 * ((1 + / 100) * V)) by (apply Rmult_le_compat_l; lra).
  assert (Hev : eta1 <= / 1000 * (ulp1 * V)).
  { apply Rle_trans with (bpow radix2 (-10) * (ulp1 * 1)); [|apply Rmult_le_compat; [apply bpow_ge_0|lra|change (bpow radix2 (-10)) with (/ 1024); lra|apply Rmult_le_compat_l; lra]].
    rewrite Rmult_1_r. unfold ulp1, eta1. rewrite <- bpow_plus. apply bpow_le. lia. }
  assert (H2 : Rabs ((B2R q - N / D) * B2R c + N / D * (B2R c - g)) <= 9 * (n * (ulp1 * V)) + 6 * (ulp1 * V) + V * (2 * ulp1)).
  { eapply Rle_trans; [apply Rabs_triang|]. rewrite !Rabs_mult, (Rabs_pos_eq (B2R c)) by lra.
    assert (Rabs (B2R q - N / D) * B2R c <= (9 * (n * (ulp1 * V)) + 6 * (ulp1 * V)) * 1) by (apply Rmult_le_compat; try apply Rabs_pos; lra).
    assert (Rabs (N / D) * Rabs (B2R c - g) <= V * (2 * ulp1)) by (apply Rmult_le_compat; try apply Rabs_pos; lra). lra. }
  assert (E49 : bpow radix2 (-49) = 16 * ulp1) by (unfold ulp1; change 16 with (bpow radix2 4); rewrite <- bpow_plus; reflexivity).
  rewrite E49. replace (16 * ulp1 * (n + 1) * V) with (16 * (n * (ulp1 * V)) + 16 * (ulp1 * V)) by ring. lra.
Qed.

(** Without a term strictly between 0 and 1 the denominator is zero. *)
Theorem output_not_finite k : D = 0 -> is_finite (output64 k) = false /\ (T = 0 -> output64 k = B754_nan).
Proof.
  intros HD. pose proof (D_zero HD) as Hz.
  assert (Z : is_finite (sum64 (map dterm64 l)) = true /\ B2R (sum64 (map dterm64 l)) = 0).
  { apply zeros_sum; [reflexivity|reflexivity|]. rewrite Forall_map, Forall_forall. intros x Hx. rewrite Forall_forall in Hz.
    destruct (dterm_error x (like x Hx)) as [F E]. split; auto. rewrite (Hz x Hx), Rmult_0_r, Rminus_0_r in E. 
    pose proof (Rabs_pos (B2R (dterm64 x))). destruct (Req_dec (B2R (dterm64 x)) 0) as [?|Hne]; auto. apply Rabs_pos_lt in Hne. lra. }
  destruct Z as [Fd Vd]. unfold output64. set (c := Bdiv mode_NE (Bminus _ _ _) _).
  assert (Zd : exists s, sum64 (map dterm64 l) = B754_zero s).
  { destruct (sum64 (map dterm64 l)) as [s|s| |s m e H]; try discriminate; [eauto|]. exfalso. cbn in Vd. unfold F2R in Vd. cbn in Vd.
    apply Rmult_integral in Vd as [Vd|Vd]; [destruct s; apply eq_IZR in Vd; discriminate|pose proof (bpow_gt_0 radix2 e); lra]. }
  destruct Zd as [s ->]. split.
  - destruct (sum64 l) as [s'|s'| |s' m e H]; cbn; destruct c; reflexivity.
  - intros HT. assert (Zn : exists s, sum64 l = B754_zero s).
    { destruct (zeros_sum l (B754_zero false) eq_refl eq_refl) as [F V].
      - rewrite Forall_forall. intros x Hx. destruct (like x Hx) as (Fx & _). split; auto.
        assert (A : Rabs (B2R x) = 0).
        { apply (Rsum_zero_all (map (fun x => Rabs (B2R x)) l)); [|exact HT|now apply (in_map (fun x => Rabs (B2R x)))].
          intros y Hy. apply in_map_iff in Hy as (u & <- & _). apply Rabs_pos. }
        destruct (Req_dec (B2R x) 0) as [?|Hne]; auto. apply Rabs_pos_lt in Hne. lra.
      - fold (sum64 l) in F, V. destruct (sum64 l) as [s'|s'| |s' m e H]; try discriminate; [eauto|]. exfalso. cbn in V. unfold F2R in V. cbn in V.
        apply Rmult_integral in V as [V|V]; [destruct s'; apply eq_IZR in V; discriminate|pose proof (bpow_gt_0 radix2 e); lra]. }
    destruct Zn as [s' ->]. cbn. destruct c; reflexivity.
Qed.

Theorem output_finite k : (2 <= k)%nat -> (Z.of_nat k <= 2 ^ 40)%Z -> l <> [] ->
  is_finite (output64 k) = true <-> exists x, In x l /\ 0 < Rabs (B2R x) < 1.
Proof.
  intros Hk Hk' Hne. split.
  - intros F. destruct (Req_dec D 0) as [E|E].
    { destruct (output_not_finite k E) as [H _]. congruence. }
    assert (Hex : Exists (fun x => hill x <> 0) l).
    { apply neg_Forall_Exists_neg; [intros x; destruct (Req_EM_T (hill x) 0); auto|]. intros HF. apply E. unfold D.
      rewrite (Rsum_map_ext hill (fun _ => 0) l); [rewrite Rsum_map_const; ring|]. rewrite Forall_forall in HF. auto. }
    apply Exists_exists in Hex as (x & Hx & Hh). exists x. split; auto. destruct (like x Hx) as (_ & H1 & _).
    pose proof (Rabs_pos (B2R x)). unfold hill in Hh. split.
    + destruct (Rle_lt_or_eq_dec 0 (Rabs (B2R x)) ltac:(lra)) as [?|E0]; auto. exfalso. apply Hh. rewrite <- E0. ring.
    + destruct (Rle_lt_or_eq_dec (Rabs (B2R x)) 1 ltac:(lra)) as [?|E0]; auto. exfalso. apply Hh. rewrite E0. ring.
  - intros (x & Hx & H). apply output_error; auto. intros E. pose proof (D_zero E) as HF. rewrite Forall_forall in HF. specialize (HF x Hx).
    unfold hill in HF. apply Rmult_integral in HF. lra.
Qed.

End Leaf.
