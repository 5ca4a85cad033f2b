(** Residuals of the classification ensembles in binary64 (C39). *)
From Coq Require Import Reals Lra Lia ZArith.
From Flocq Require Import Core Relative.
From Flocq Require Import IEEE754.BinarySingleNaN.
From Verif Require Import Base Num ModelCommon ModelTree ModelBoost Spec SpecTree SpecScore Lib F64 Decide ProofSort ProofScore ProofBoost ProofScoreF64 ProofRound.
Local Open Scope R_scope.

Section Platform.
Context (P : platform).

Definition exps (s : list F) : F := fold_left fadd (map fexp s) fsum0.

Lemma product_nan (x : f64) : is_finite x = false -> Bmult mode_NE (B754_infinity false) (Bdiv mode_NE Bone x) = B754_nan.
Proof. destruct x as [?|[|]| |]; try discriminate; reflexivity. Qed.

Lemma softmax_overflow (s : list F) j (x : F) : nth_error s j = Some x -> fexp x = finf -> nth_error (softmax s) j = Some (B754_nan : F).
Proof.
  intros Hj Hx. unfold softmax. rewrite nth_error_map, Hj. cbn [option_map]. rewrite Hx. f_equal.
  apply (product_nan (exps s)). apply fold_plus_not_finite. apply Exists_exists. exists (fexp x). split.
  - apply in_map. eapply nth_error_In; eauto. - rewrite Hx. reflexivity.
Qed.

Lemma minus_nan (x : f64) : Bminus mode_NE x B754_nan = B754_nan.
Proof. destruct x; reflexivity. Qed.

Lemma nth_error_differences (ys ss : list (list F)) i y s : nth_error ys i = Some y -> nth_error ss i = Some s ->
  nth_error (differences ys ss) i = Some (map (fun q => fsub (fst q) (snd q)) (combine y s)).
Proof.
  intros H1 H2. unfold differences. rewrite nth_error_map, nth_error_combine, H1, H2. reflexivity.
Qed.

Theorem residual_overflow (td : training_data) r i (y s v : list F) j (x : F) :
  td_size td = length (labels (td_data td)) -> length (td_labels td) = length (labels (td_data td)) ->
  calculate_residuals_multi_class td = Ok r ->
  nth_error (labels (td_data td)) i = Some y -> nth_error (td_labels td) i = Some s -> nth_error r i = Some v ->
  nth_error s j = Some x -> fexp x = finf -> nth_error v j = Some B754_nan.
Proof.
  intros HS HL E Hy Hs Hv Hx Hi. apply calculate_residuals_multi_class_eq in E as [HF ->]; auto.
  assert (Hs' : nth_error (map softmax (td_labels td)) i = Some (softmax s)) by now rewrite nth_error_map, Hs.
  rewrite (nth_error_differences _ _ _ _ _ Hy Hs') in Hv. injection Hv as <-.
  assert (L : length y = length s) by (eapply (proj2 (proj1 (Forall2_nth _ _ _) HF)); eauto).
  destruct (nth_error y j) as [a|] eqn:Ea.
  - rewrite nth_error_map, nth_error_combine. pose proof (softmax_overflow _ _ _ Hx Hi) as En. change (option_map (fun q : F * F => fsub (fst q) (snd q)) (match nth_error y j, nth_error (softmax s) j with Some x, Some y => Some (x, y) | _, _ => None end) = Some (B754_nan : F)). rewrite Ea, En. cbn. f_equal. apply minus_nan.
  - apply nth_error_None in Ea. assert (j < length s)%nat by (apply nth_error_Some; congruence). lia.
Qed.

Lemma above_one : rnd (1 + bpow radix2 (-53)) = 1.
Proof.
  assert (E : Bplus mode_NE Bone (binary_normalize 53 1024 _ _ mode_NE 1 (-53) false) = Bone) by compute_eq.
  destruct (plus_finite Bone (binary_normalize 53 1024 _ _ mode_NE 1 (-53) false)) as (_ & _ & V); [now rewrite E|].
  rewrite E in V. rewrite Bone_correct in V.
  replace (B2R (binary_normalize 53 1024 _ _ mode_NE 1 (-53) false)) with (bpow radix2 (-53)) in V; [now symmetry|].
  pose proof (binary_normalize_correct 53 1024 _ _ mode_NE 1 (-53) false) as C. cbn [round_mode] in C.
  assert (Ef : F2R (Float radix2 1 (-53)) = bpow radix2 (-53)) by (unfold F2R; cbn; lra).
  rewrite Ef in C. rewrite (rnd_format (bpow radix2 (-53))) in C by (apply format_pow; lia).
  rewrite Rlt_bool_true in C; [symmetry; apply C|].
  rewrite Rabs_pos_eq by apply bpow_ge_0. apply bpow_lt. lia.
Qed.

Lemma inverse_bound (s : f64) : bpow radix2 (-1022) <= B2R s <= bpow radix2 1022 ->
  is_finite (Bdiv mode_NE Bone s) = true /\ 0 <= B2R (Bdiv mode_NE Bone s) /\
  B2R s * B2R (Bdiv mode_NE Bone s) <= 1 + bpow radix2 (-53).
Proof.
  intros [H1 H2]. pose proof (bpow_gt_0 radix2 (-1022)) as Hp.
  assert (Hs : 0 < B2R s) by lra.
  assert (I1 : bpow radix2 (-1022) <= 1 / B2R s).
  { unfold Rdiv. rewrite Rmult_1_l. change (-1022)%Z with (- (1022))%Z. rewrite bpow_opp. apply Rinv_le; auto. }
  assert (I2 : 1 / B2R s <= bpow radix2 1022).
  { unfold Rdiv. rewrite Rmult_1_l. change 1022%Z with (- (-1022))%Z. rewrite bpow_opp. apply Rinv_le; auto. }
  pose proof (relative_error_N_FLT radix2 (-1074) 53 eq_refl (fun x => negb (Z.even x)) (1 / B2R s)) as RE.
  rewrite (Rabs_pos_eq (1 / B2R s)) in RE by lra. specialize (RE I1).
  change (round radix2 (FLT_exp (-1074) 53) ZnearestE (1 / B2R s)) with (rnd (1 / B2R s)) in RE.
  assert (Eu : / 2 * bpow radix2 (- (53) + 1) = bpow radix2 (-53)).
  { change (-53)%Z with (- (53) + 1 + -1)%Z. rewrite (bpow_plus radix2 (- (53) + 1) (-1)).
    replace (bpow radix2 (-1)) with (/ 2) by (cbn; lra). lra. }
  rewrite Eu in RE. apply Rabs_le_inv in RE.
  assert (B0 : 0 <= rnd (1 / B2R s)) by (rewrite <- rnd_0; apply rnd_le; lra).
  assert (B1 : rnd (1 / B2R s) <= bpow radix2 1022).
  { rewrite <- (rnd_format (bpow radix2 1022)) by (apply format_pow; lia). now apply rnd_le. }
  destruct (div_value Bone s) as [F V]; auto.
  { lra. }
  { rewrite Bone_correct. rewrite Rabs_pos_eq by auto. apply Rle_lt_trans with (1 := B1). apply bpow_lt. lia. }
  rewrite Bone_correct in V. split; [exact F|]. rewrite V. split; auto.
  apply Rle_trans with (B2R s * ((1 + bpow radix2 (-53)) * (1 / B2R s))).
  - apply Rmult_le_compat_l; lra. - right. field. lra.
Qed.

Definition ordinary (s : list F) : Prop :=
  (forall x, In x s -> 0 <= B2R (fexp x)) /\ is_finite (exps s) = true /\
  bpow radix2 (-1022) <= B2R (exps s) <= bpow radix2 1022.

Lemma fsum0_zero : B2R (@fsum0 (f64_ops P)) = 0.
Proof. cbn. destruct (p_sum_from_negative_zero P); reflexivity. Qed.

Lemma probability_range (s : list F) : ordinary s -> Forall (fun p => is_finite p = true /\ 0 <= B2R p <= 1) (softmax s).
Proof.
  intros (H0 & Hf & HB). unfold softmax. apply Forall_map. apply Forall_forall. intros x Hx.
  destruct (inverse_bound _ HB) as (Q1 & Q2 & Q3).
  pose proof (fold_plus_finite _ _ Hf) as [_ Fe]. rewrite Forall_map in Fe.
  pose proof (proj1 (Forall_forall _ _) Fe x Hx) as Fx. cbn beta in Fx.
  destruct (fold_plus_above (map fexp s) (@fsum0 (f64_ops P)) Hf) as [_ A].
  { rewrite fsum0_zero. lra. }
  { apply Forall_map. apply Forall_forall. exact H0. }
  rewrite Forall_map in A. pose proof (proj1 (Forall_forall _ _) A x Hx) as Ax. cbn beta in Ax.
  pose proof (H0 x Hx) as Ex.
  assert (U : B2R (fexp x) * B2R (Bdiv mode_NE Bone (exps s)) <= 1 + bpow radix2 (-53)).
  { apply Rle_trans with (2 := Q3). apply Rmult_le_compat_r; auto. }
  assert (R0 : 0 <= rnd (B2R (fexp x) * B2R (Bdiv mode_NE Bone (exps s)))).
  { rewrite <- rnd_0. apply rnd_le. now apply Rmult_le_pos. }
  assert (R1 : rnd (B2R (fexp x) * B2R (Bdiv mode_NE Bone (exps s))) <= 1).
  { rewrite <- above_one. now apply rnd_le. }
  destruct (mult_value (fexp x) (Bdiv mode_NE Bone (exps s)) Fx Q1) as [F V].
  { rewrite Rabs_pos_eq by auto. apply Rle_lt_trans with (1 := R1). exact one_lt_emax. }
  split; [exact F|]. change (0 <= B2R (Bmult mode_NE (fexp x) (Bdiv mode_NE Bone (exps s))) <= 1). rewrite V. auto.
Qed.

Theorem residual_range (td : training_data) r k i (y : list F) c (s v : list F) :
  td_size td = length (labels (td_data td)) -> length (td_labels td) = length (labels (td_data td)) ->
  calculate_residuals_multi_class td = Ok r ->
  nth_error (labels (td_data td)) i = Some y -> nth_error (td_labels td) i = Some s -> nth_error r i = Some v ->
  one_hot k c y -> (forall x, In x s -> 0 <= B2R (fexp x)) ->
  is_finite (fold_left fadd (map fexp s) fsum0) = true ->
  bpow radix2 (-1022) <= B2R (fold_left fadd (map fexp s) fsum0) <= bpow radix2 1022 ->
  length v = k /\ Forall (fun x => is_finite x = true /\ -1 <= B2R x <= 1) v.
Proof.
  intros HS HL E Hy Hs Hv HO H0 Hf HB. apply calculate_residuals_multi_class_eq in E as [HF ->]; auto.
  assert (Hs' : nth_error (map softmax (td_labels td)) i = Some (softmax s)) by now rewrite nth_error_map, Hs.
  rewrite (nth_error_differences _ _ _ _ _ Hy Hs') in Hv. injection Hv as <-.
  assert (L : length y = length s) by (eapply (proj2 (proj1 (Forall2_nth _ _ _) HF)); eauto).
  destruct HO as (Hc & Ly & HO). split.
  { rewrite map_length, combine_length. change (Nat.min (length y) (length (softmax s)) = k). rewrite softmax_length. lia. }
  pose proof (probability_range s (conj H0 (conj Hf HB))) as PR.
  apply Forall_map, Forall_forall. intros [a p] Hin. cbn [fst snd].
  pose proof (proj1 (Forall_forall _ _) PR p (in_combine_r _ _ _ _ Hin)) as (Fp & Rp).
  assert (Ha : is_finite a = true /\ 0 <= B2R a <= 1).
  { apply in_combine_l in Hin. destruct (@In_nth_error (@F (f64_ops P)) y a Hin) as (j & Hj).
    assert (Hjk : (j < k)%nat) by (rewrite <- Ly; apply (@nth_error_Some (@F (f64_ops P))); rewrite Hj; discriminate).
    rewrite (HO j Hjk) in Hj. injection Hj as <-. destruct (_ =? _)%N.
    - change (is_finite (@Bone 53 1024 _ _) = true /\ 0 <= B2R (@Bone 53 1024 _ _) <= 1). rewrite Bone_correct. split; [reflexivity|lra].
    - cbn. split; [reflexivity|lra]. }
  destruct Ha as [Fa Ra].
  assert (R0 : -1 <= rnd (B2R a - B2R p)) by (rewrite <- rnd_m1; apply rnd_le; lra).
  assert (R1 : rnd (B2R a - B2R p) <= 1) by (rewrite <- rnd_1; apply rnd_le; lra).
  destruct (minus_value a p Fa Fp) as [F V].
  { apply Rle_lt_trans with 1; [|exact one_lt_emax]. apply Rabs_le. lra. }
  split; [exact F|]. change (-1 <= B2R (Bminus mode_NE a p) <= 1). rewrite V. auto.
Qed.

End Platform.
