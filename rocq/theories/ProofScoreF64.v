(** The accuracy fraction in binary64. *)
From Coq Require Import Reals Lra.
From Flocq Require Import Core.
From Flocq Require Import IEEE754.BinarySingleNaN.
From Verif Require Import Base Num F64.

Definition rnd (x : R) : R := round radix2 (SpecFloat.fexp 53 1024) (round_mode mode_NE) x.

Lemma format_pow e : (-1074 <= e)%Z -> generic_format radix2 (SpecFloat.fexp 53 1024) (bpow radix2 e).
Proof. intros H. apply generic_format_bpow. unfold SpecFloat.fexp, SpecFloat.emin. lia. Qed.

Lemma format_one : generic_format radix2 (SpecFloat.fexp 53 1024) 1.
Proof. apply (format_pow 0). lia. Qed.

Lemma format_pred_one : generic_format radix2 (SpecFloat.fexp 53 1024) (1 - bpow radix2 (-53)).
Proof.
  apply generic_format_FLT. exists (Float radix2 (2 ^ 53 - 1) (-53)).
  - unfold F2R. cbn [Fnum Fexp]. rewrite minus_IZR.
    change (IZR (2 ^ 53)) with (IZR (Zpower radix2 53)). rewrite IZR_Zpower by lia.
    rewrite Rmult_minus_distr_r, <- bpow_plus. change (bpow radix2 (53 + -53)) with 1%R. lra.
  - simpl. lia.
  - simpl. unfold SpecFloat.emin. lia.
Qed.

Lemma inv_pow n : (0 < n <= 2 ^ 53)%Z -> (bpow radix2 (-53) <= / IZR n)%R.
Proof.
  intros H. change (-53)%Z with (- (53))%Z. rewrite bpow_opp. apply Rinv_le_contravar; [apply IZR_lt; lia|].
  change (bpow radix2 53) with (IZR (Zpower radix2 53)). apply IZR_le. simpl. lia.
Qed.

Theorem fraction_f64 (k n : Z) :
  (0 <= k <= n)%Z -> (0 < n <= 2 ^ 53)%Z ->
  let r := Bdiv mode_NE (f64_of_Z k) (f64_of_Z n) in
  is_finite r = true /\ B2R r = rnd (IZR k / IZR n) /\
  Bleb (B754_zero false) r = true /\ Bleb r Bone = true /\
  (Beqb r Bone = true <-> k = n) /\ (Beqb r (B754_zero false) = true <-> k = 0%Z).
Proof.
  intros Hk Hn r.
  destruct (f64_of_Z_exact k) as (A1 & A2 & A3); [lia|].
  destruct (f64_of_Z_exact n) as (B1 & B2 & B3); [lia|].
  assert (Hn0 : (0 < IZR n)%R) by (apply IZR_lt; lia).
  assert (Hk0 : (0 <= IZR k)%R) by (apply IZR_le; lia).
  assert (Hq0 : (0 <= IZR k / IZR n)%R).
  { apply Rmult_le_pos; auto. apply Rlt_le, Rinv_0_lt_compat; auto. }
  assert (Hq1 : (IZR k / IZR n <= 1)%R).
  { apply Rmult_le_reg_r with (IZR n); auto. unfold Rdiv. rewrite Rmult_assoc, Rinv_l by lra.
    assert (IZR k <= IZR n)%R by (apply IZR_le; lia). lra. }
  assert (Hr0 : (0 <= rnd (IZR k / IZR n))%R).
  { unfold rnd. apply round_ge_generic; try typeclasses eauto; auto. apply generic_format_0. }
  assert (Hr1 : (rnd (IZR k / IZR n) <= 1)%R).
  { unfold rnd. apply round_le_generic; try typeclasses eauto; auto. apply format_one. }
  pose proof (Bdiv_correct 53 1024 _ _ mode_NE (f64_of_Z k) (f64_of_Z n)) as H.
  rewrite A1, B1 in H. specialize (H (Rgt_not_eq _ _ Hn0)).
  rewrite Rlt_bool_true in H.
  2:{ change (round radix2 (SpecFloat.fexp 53 1024) (round_mode mode_NE) (IZR k / IZR n)) with (rnd (IZR k / IZR n)).
      rewrite Rabs_pos_eq by auto. apply Rle_lt_trans with 1%R; auto.
      change 1%R with (bpow radix2 0). apply bpow_lt. lia. }
  destruct H as (H1 & H2 & H3). rewrite A2 in H2. change (B2R r = rnd (IZR k / IZR n)) in H1.
  change (is_finite r = true) in H2.
  split; [exact H2|]. split; [exact H1|].
  assert (L0 : Bleb (B754_zero false) r = true).
  { rewrite Bleb_correct by auto. apply Rle_bool_true. rewrite H1. simpl. auto. }
  assert (L1 : Bleb r Bone = true).
  { rewrite Bleb_correct by auto. apply Rle_bool_true. rewrite H1, Bone_correct. auto. }
  split; [exact L0|]. split; [exact L1|].
  rewrite !Beqb_correct by auto. rewrite H1, Bone_correct. change (B2R (B754_zero false : f64)) with 0%R.
  split.
  - destruct (Req_bool_spec (rnd (IZR k / IZR n)) 1) as [E|E]; split; try discriminate; auto.
    + intros _. destruct (Z.eq_dec k n) as [|Hne]; auto. exfalso.
      assert (Hp : (rnd (IZR k / IZR n) <= 1 - bpow radix2 (-53))%R).
      { unfold rnd. apply round_le_generic; try typeclasses eauto; [apply format_pred_one|].
        pose proof (inv_pow n Hn) as Hi.
        assert (IZR k <= IZR n - 1)%R by (rewrite <- minus_IZR; apply IZR_le; lia).
        assert (IZR k / IZR n <= (IZR n - 1) / IZR n)%R.
        { apply Rmult_le_compat_r; auto. apply Rlt_le, Rinv_0_lt_compat; auto. }
        replace ((IZR n - 1) / IZR n)%R with (1 - / IZR n)%R in * by (field; lra). lra. }
      pose proof (bpow_gt_0 radix2 (-53)). lra.
    + intros ->. exfalso. apply E. unfold Rdiv. rewrite Rinv_r by lra.
      unfold rnd. apply round_generic; try typeclasses eauto. apply format_one.
  - destruct (Req_bool_spec (rnd (IZR k / IZR n)) 0) as [E|E]; split; try discriminate; auto.
    + intros _. destruct (Z.eq_dec k 0) as [|Hne]; auto. exfalso.
      assert (Hp : (bpow radix2 (-53) <= rnd (IZR k / IZR n))%R).
      { unfold rnd. apply round_ge_generic; try typeclasses eauto; [apply format_pow; lia|].
        pose proof (inv_pow n Hn) as Hi. apply Rle_trans with (/ IZR n)%R; auto.
        assert (1 <= IZR k)%R by (apply IZR_le; lia).
        unfold Rdiv. rewrite <- (Rmult_1_l (/ IZR n)) at 1. apply Rmult_le_compat_r; auto.
        apply Rlt_le, Rinv_0_lt_compat; auto. }
      pose proof (bpow_gt_0 radix2 (-53)). lra.
    + intros ->. exfalso. apply E. unfold Rdiv. rewrite Rmult_0_l.
      unfold rnd. apply round_0. typeclasses eauto.
Qed.

(** 0/0. *)
Lemma fraction_empty : Bdiv mode_NE (f64_of_Z 0) (f64_of_Z 0) = B754_nan.
Proof. reflexivity. Qed.

From Verif Require Import ModelCommon ModelTree ModelBoost Spec SpecTree SpecScore SpecF64 Lib ProofScore ProofBoost.
From Coq Require Import Permutation.

Theorem fraction_spec (k n : nat) :
  k <= n -> 0 < n -> (Z.of_nat n <= 2 ^ 53)%Z ->
  is_fraction k n (Bdiv mode_NE (f64_of_Z (Z.of_nat k)) (f64_of_Z (Z.of_nat n))).
Proof.
  intros H1 H2 H3. destruct (fraction_f64 (Z.of_nat k) (Z.of_nat n)) as (A1 & A2 & A3 & A4 & A5 & A6); [lia|lia|].
  unfold is_fraction. set (r := Bdiv _ _ _) in *.
  rewrite Bleb_correct in A3, A4 by auto. rewrite Beqb_correct in A5, A6 by auto.
  change (B2R (B754_zero false : f64)) with 0%R in *. rewrite Bone_correct in *.
  destruct (Rle_bool_spec 0 (B2R r)); [|discriminate]. destruct (Rle_bool_spec (B2R r) 1); [|discriminate].
  split; auto. split; [rewrite A2, <- !INR_IZR_INZ; reflexivity|]. split; [lra|]. split.
  - split; intros Q.
    + assert (Z.of_nat k = Z.of_nat n) by (apply A5; rewrite Q; apply Req_bool_true; auto). lia.
    + assert (Req_bool (B2R r) 1 = true) as Q' by (apply A5; lia). now destruct (Req_bool_spec (B2R r) 1).
  - split; intros Q.
    + assert (Z.of_nat k = 0)%Z by (apply A6; rewrite Q; apply Req_bool_true; auto). lia.
    + assert (Req_bool (B2R r) 0 = true) as Q' by (apply A6; lia). now destruct (Req_bool_spec (B2R r) 0).
Qed.

Lemma filter_le {A} (p : A -> bool) l : length (filter p l) <= length l.
Proof. induction l as [|x l IH]; simpl; auto. destruct (p x); simpl; lia. Qed.

Lemma filter_all {A} (p : A -> bool) l : length (filter p l) = length l <-> Forall (fun x => p x = true) l.
Proof.
  induction l as [|x l IH]; simpl; [split; auto|]. pose proof (filter_le p l). destruct (p x) eqn:E; simpl; split; intros Q.
  - constructor; auto. apply IH. lia.
  - inversion Q; subst. f_equal. now apply IH.
  - lia.
  - inversion Q; congruence.
Qed.

Lemma filter_none {A} (p : A -> bool) l : length (filter p l) = 0 <-> Forall (fun x => p x = false) l.
Proof.
  induction l as [|x l IH]; simpl; [split; auto|]. destruct (p x) eqn:E; simpl; split; intros Q.
  - lia.
  - inversion Q; congruence.
  - constructor; auto. now apply IH.
  - inversion Q; subst. now apply IH.
Qed.

Section Acc.
Context (P : platform).

Lemma row_correct_b predict p :
  row_correct predict p <-> match predict (fst p) with Ok v => equal_vectors v (snd p) | _ => false end = true.
Proof.
  unfold row_correct. destruct (predict (fst p)); split; try discriminate; try (intros (v & E & H); congruence); eauto.
Qed.

Lemma correct_all predict (test : dataset) :
  length (labels test) = length (feature_rows test) ->
  (length (correct_samples predict test) = length (feature_rows test) <-> Forall (row_correct predict) (samples test)) /\
  (length (correct_samples predict test) = 0 <-> Forall (fun p => ~ row_correct predict p) (samples test)).
Proof.
  intros HL. assert (Hs : length (samples test) = length (feature_rows test)) by (unfold samples; rewrite combine_length; lia).
  rewrite <- Hs. unfold correct_samples. rewrite filter_all, filter_none. split.
  - split; apply Forall_impl; intros p; apply row_correct_b.
  - split; apply Forall_impl; intros p; rewrite row_correct_b.
    + congruence.
    + intros H. now apply not_true_iff_false.
Qed.

Theorem tree_accuracy_f64 (test : dataset) (t : tree_node regression_leaf) :
  length (labels test) = length (feature_rows test) -> feature_rows test <> [] ->
  (Z.of_nat (length (feature_rows test)) <= 2 ^ 53)%Z ->
  Forall (fun row => exists v, predict_class row t = Ok v) (feature_rows test) ->
  exists r, calculate_accuracy test t = Ok r /\
    is_fraction (length (correct_samples (fun row => predict_class row t) test)) (length (feature_rows test)) r.
Proof.
  intros HL NE Hn HP. eexists. split; [apply (tree_accuracy (f64_laws P)); auto; lia|].
  apply fraction_spec; auto.
  - unfold correct_samples. rewrite filter_le. unfold samples. rewrite combine_length. lia.
  - destruct (feature_rows test); [congruence|simpl; lia].
Qed.

Theorem ensemble_accuracy_f64 (test : dataset) predict :
  length (labels test) = length (feature_rows test) -> feature_rows test <> [] ->
  (Z.of_nat (length (feature_rows test)) <= 2 ^ 53)%Z ->
  Forall (fun row => exists v, predict row = Ok v) (feature_rows test) ->
  exists r, (ps <- calculate_all_predictions predict test;; calculate_accuracy_from_predictions ps test) = Ok r /\
    is_fraction (length (correct_samples predict test)) (length (feature_rows test)) r.
Proof.
  intros HL NE Hn HP. eexists. split; [apply (ensemble_accuracy (f64_laws P)); auto; lia|].
  apply fraction_spec; auto.
  - unfold correct_samples. rewrite filter_le. unfold samples. rewrite combine_length. lia.
  - destruct (feature_rows test); [congruence|simpl; lia].
Qed.

Theorem tree_accuracy_empty (test : dataset) (t : tree_node regression_leaf) :
  feature_rows test = [] -> calculate_accuracy test t = Ok (B754_nan : f64).
Proof. intros H. unfold calculate_accuracy. rewrite H. reflexivity. Qed.

Theorem ensemble_accuracy_empty (test : dataset) predict :
  feature_rows test = [] ->
  (ps <- calculate_all_predictions predict test;; calculate_accuracy_from_predictions ps test) = Ok (B754_nan : f64).
Proof. intros H. rewrite all_predictions_eq, H. reflexivity. Qed.

Lemma perm_rows (test test' : dataset) :
  length (labels test) = length (feature_rows test) -> length (labels test') = length (feature_rows test') ->
  Permutation (samples test) (samples test') -> Permutation (feature_rows test) (feature_rows test').
Proof.
  intros H1 H2 HP. apply (Permutation_map fst) in HP. unfold samples in HP.
  now rewrite !map_fst_combine in HP by auto.
Qed.

Lemma perm_accuracy (test test' : dataset) predict :
  length (labels test) = length (feature_rows test) -> length (labels test') = length (feature_rows test') ->
  Permutation (samples test) (samples test') ->
  (Z.of_nat (length (feature_rows test)) <= 2 ^ 53)%Z ->
  Forall (fun row => exists v, predict row = Ok v) (feature_rows test) ->
  length (correct_samples predict test) = length (correct_samples predict test') /\
  length (feature_rows test) = length (feature_rows test') /\
  Forall (fun row => exists v, predict row = Ok v) (feature_rows test').
Proof.
  intros H1 H2 HP Hn HF. pose proof (perm_rows _ _ H1 H2 HP) as HR.
  split; [now apply correct_perm|]. split; [now apply Permutation_length|].
  eapply Permutation_Forall; eauto.
Qed.

Theorem tree_accuracy_perm (test test' : dataset) (t : tree_node regression_leaf) :
  length (labels test) = length (feature_rows test) -> length (labels test') = length (feature_rows test') ->
  Permutation (samples test) (samples test') ->
  (Z.of_nat (length (feature_rows test)) <= 2 ^ 53)%Z ->
  Forall (fun row => exists v, predict_class row t = Ok v) (feature_rows test) ->
  calculate_accuracy test t = calculate_accuracy test' t.
Proof.
  intros H1 H2 HP Hn HF. destruct (perm_accuracy test test' (fun row => predict_class row t) H1 H2 HP Hn HF) as (A & B & C).
  rewrite !(tree_accuracy (f64_laws P)) by (auto; lia). now rewrite A, B.
Qed.

Theorem ensemble_accuracy_perm (test test' : dataset) predict :
  length (labels test) = length (feature_rows test) -> length (labels test') = length (feature_rows test') ->
  Permutation (samples test) (samples test') ->
  (Z.of_nat (length (feature_rows test)) <= 2 ^ 53)%Z ->
  Forall (fun row => exists v, predict row = Ok v) (feature_rows test) ->
  (ps <- calculate_all_predictions predict test;; calculate_accuracy_from_predictions ps test) =
  (ps <- calculate_all_predictions predict test';; calculate_accuracy_from_predictions ps test').
Proof.
  intros H1 H2 HP Hn HF. destruct (perm_accuracy test test' predict H1 H2 HP Hn HF) as (A & B & C).
  rewrite !(ensemble_accuracy (f64_laws P)) by (auto; lia). now rewrite A, B.
Qed.

End Acc.
