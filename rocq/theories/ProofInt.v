(** The split finder in binary64 on integer labels. *)
From Coq Require Import Reals Lra Lia ZArith Permutation Sorted.
From Flocq Require Import Core.
From Flocq Require Import IEEE754.BinarySingleNaN.
From Verif Require Import Base Num ModelCommon ModelTree Lib Spec F64 XR SpecExact SpecInt ProofReal ProofData ProofSort
  ProofSplit ProofSplit2 ProofSplitExact ProofScoreF64 ProofRound ProofError ProofScan.
Local Open Scope R_scope.

(* ------------------------------------------------------------------ *)
(** ** Exact values of floats *)

Lemma exact_leb (x y : f64) : xleb (exact_value x) (exact_value y) = Bleb x y.
Proof.
  rewrite Bleb_rank.
  destruct (Rle_bool_spec (rank x) (rank y)) as [H|H];
  pose proof (abs_B2R_lt_emax 53 1024 x) as Hx; apply Rabs_lt_inv in Hx;
  pose proof (abs_B2R_lt_emax 53 1024 y) as Hy; apply Rabs_lt_inv in Hy;
  destruct x as [sx|[|]| |sx mx ex Ex], y as [sy|[|]| |sy my ey Ey]; cbn [exact_value xleb is_nan negb andb rank] in *;
    try reflexivity; try (exfalso; lra);
    match goal with |- context [Rle_dec ?a ?b] => destruct (Rle_dec a b); try reflexivity; exfalso; lra end.
Qed.

Lemma exact_finite (x : f64) : is_finite x = true -> exact_value x = Fin (B2R x).
Proof. destruct x as [s|[|]| |s m e H]; try discriminate; reflexivity. Qed.

Lemma finite_num (x : f64) : is_finite x = true -> Bleb x x = true.
Proof. intros H. rewrite Bleb_refl. destruct x; try discriminate; reflexivity. Qed.

Lemma finite_leb (x y : f64) : is_finite x = true -> is_finite y = true -> (Bleb x y = true <-> B2R x <= B2R y).
Proof. intros Hx Hy. rewrite Bleb_correct by assumption. destruct (Rle_bool_spec (B2R x) (B2R y)); split; intros; auto; try discriminate; lra. Qed.

Lemma finite_ltb (x y : f64) : is_finite x = true -> is_finite y = true -> (Bltb x y = true <-> B2R x < B2R y).
Proof.
  intros Hx Hy. rewrite (proj2 (Bleb_swap_cmp x y)), andb_true_iff, negb_true_iff.
  rewrite finite_leb by assumption. rewrite <- not_true_iff_false, finite_leb by assumption. split; [intros [? ?]|split]; lra.
Qed.

(* ------------------------------------------------------------------ *)
(** ** Integer label vectors *)

Definition ztarget (t : nat) (zs : list (list Z)) : list Z := map (fun l => nth t l 0%Z) zs.
Definition sumZ (l : list Z) : Z := fold_right Z.add 0%Z l.
Definition sqZ (l : list Z) : Z := fold_right (fun x s => (x * x + s)%Z) 0%Z l.
Definition fz (zs : list (list Z)) : list (list f64) := map (map f64_of_Z) zs.
Definition rz (zs : list (list Z)) : list (list R) := map (map IZR) zs.
Lemma rz_length zs : length (rz zs) = length zs.
Proof. apply map_length. Qed.
Definition bounded (M : Z) (zs : list (list Z)) : Prop := Forall (Forall (fun z => (Z.abs z <= M)%Z)) zs.

Lemma ztarget_app t a b : ztarget t (a ++ b) = ztarget t a ++ ztarget t b.
Proof. apply map_app. Qed.
Lemma ztarget_length t a : length (ztarget t a) = length a.
Proof. apply map_length. Qed.
Lemma sumZ_app a b : sumZ (a ++ b) = (sumZ a + sumZ b)%Z.
Proof. induction a; cbn [app sumZ fold_right]; [reflexivity|]. fold (sumZ (a0 ++ b)). fold (sumZ a0). lia. Qed.
Lemma sqZ_app a b : sqZ (a ++ b) = (sqZ a + sqZ b)%Z.
Proof. induction a; cbn [app sqZ fold_right]; [reflexivity|]. fold (sqZ (a0 ++ b)). fold (sqZ a0). lia. Qed.
Lemma sumZ_perm a b : Permutation a b -> sumZ a = sumZ b.
Proof. induction 1; cbn [sumZ fold_right] in *; unfold sumZ in *; lia. Qed.
Lemma sqZ_perm a b : Permutation a b -> sqZ a = sqZ b.
Proof. induction 1; cbn [sqZ fold_right] in *; unfold sqZ in *; lia. Qed.

Lemma ztarget_bounded M t zs : (0 <= M)%Z -> bounded M zs -> Forall (fun z => (Z.abs z <= M)%Z) (ztarget t zs).
Proof.
  intros HM H. unfold ztarget. apply Forall_map. eapply Forall_impl; [|exact H]. intros l Hl. cbv beta.
  destruct (nth_in_or_default t l 0%Z) as [Hi| ->]; [|cbn; lia]. rewrite Forall_forall in Hl. auto.
Qed.

Lemma sumZ_bound M l : Forall (fun z => (Z.abs z <= M)%Z) l -> (Z.abs (sumZ l) <= Z.of_nat (length l) * M)%Z.
Proof. induction 1; cbn [sumZ fold_right length] in *; [lia|]. fold (sumZ l). lia. Qed.
Lemma sqZ_bound M l : (0 <= M)%Z -> Forall (fun z => (Z.abs z <= M)%Z) l -> (0 <= sqZ l <= Z.of_nat (length l) * (M * M))%Z.
Proof.
  intros HM. induction 1 as [|x l Hx _ IH]; cbn [sqZ fold_right length] in *; [lia|]. fold (sqZ l).
  assert (x * x <= M * M)%Z by (rewrite <- (Z.abs_square x); nia). nia.
Qed.

Lemma target_rz t zs : target t (rz zs) = map IZR (ztarget t zs).
Proof. unfold target, rz, ztarget. rewrite !map_map. apply map_ext. intros l. change 0 with (IZR 0). apply map_nth. Qed.
Lemma Rsum_IZR l : Rsum (map IZR l) = IZR (sumZ l).
Proof. induction l; cbn [map Rsum fold_right sumZ]; [reflexivity|]. rewrite plus_IZR. fold (sumZ l). rewrite <- IHl. reflexivity. Qed.
Lemma sumsq_IZR l : sumsq (map IZR l) = IZR (sqZ l).
Proof.
  unfold sumsq. induction l; cbn [map Rsum fold_right sqZ]; [reflexivity|]. rewrite plus_IZR, mult_IZR. fold (sqZ l). rewrite <- IHl. reflexivity.
Qed.

Lemma variance_Z l : l <> [] ->
  variance (map IZR l) = (IZR (sqZ l) - IZR (Z.of_nat (length l)) *
     (IZR (sumZ l) / IZR (Z.of_nat (length l)) * (IZR (sumZ l) / IZR (Z.of_nat (length l))))) / IZR (Z.of_nat (length l)).
Proof.
  intros H. rewrite <- variance_moments by (intros E; apply map_eq_nil in E; contradiction).
  now rewrite sumsq_IZR, Rsum_IZR, map_length, INR_IZR_INZ.
Qed.

Lemma bounded_app M a b : bounded M (a ++ b) <-> bounded M a /\ bounded M b.
Proof. apply Forall_app. Qed.
Lemma bounded_perm M a b : Permutation a b -> bounded M a -> bounded M b.
Proof. intros H. unfold bounded. now rewrite H. Qed.
Lemma bounded_cons M a b : bounded M (a :: b) -> Forall (fun z => (Z.abs z <= M)%Z) a /\ bounded M b.
Proof. intros H. inversion H; auto. Qed.

Section Int.
Context (P : platform) (M : Z) (HM : (1 <= M)%Z).
Local Existing Instance f64_ops.
Local Remove Hints xr_ops : typeclass_instances.

Definition fits (zs : list (list Z)) : Prop := bounded M zs /\ (Z.of_nat (length zs) * (M * M) <= 2 ^ 53)%Z.

Lemma fits_le a b : fits b -> bounded M a -> (length a <= length b)%nat -> fits a.
Proof. intros [_ H] Ha Hl. split; auto. nia. Qed.
Lemma fits_app_l a b : fits (a ++ b) -> fits a.
Proof. intros H. apply (fits_le a (a ++ b)); auto; [now destruct (proj1 (bounded_app M a b) (proj1 H))|rewrite app_length; lia]. Qed.
Lemma fits_app_r a b : fits (a ++ b) -> fits b.
Proof. intros H. apply (fits_le b (a ++ b)); auto; [now destruct (proj1 (bounded_app M a b) (proj1 H))|rewrite app_length; lia]. Qed.
Lemma fits_perm a b : Permutation a b -> fits a -> fits b.
Proof. intros Hp [H1 H2]. split; [eapply bounded_perm; eauto|]. now rewrite <- (Permutation_length Hp). Qed.

Lemma fits_sum t zs : fits zs -> (Z.abs (sumZ (ztarget t zs)) <= 2 ^ 53)%Z.
Proof.
  intros [H1 H2]. pose proof (sumZ_bound M _ (ztarget_bounded M t zs ltac:(lia) H1)) as H. rewrite ztarget_length in H. nia.
Qed.
Lemma fits_sq t zs : fits zs -> (Z.abs (sqZ (ztarget t zs)) <= 2 ^ 53)%Z.
Proof.
  intros [H1 H2]. pose proof (sqZ_bound M _ ltac:(lia) (ztarget_bounded M t zs ltac:(lia) H1)) as H. rewrite ztarget_length in H. lia.
Qed.
Lemma fits_length zs : fits zs -> (Z.of_nat (length zs) <= 2 ^ 53)%Z.
Proof. intros [_ H]. nia. Qed.

Definition sums (k : nat) (zs : list (list Z)) : list f64 := map (fun t => f64_of_Z (sumZ (ztarget t zs))) (seq 0 k).
Definition sqs (k : nat) (zs : list (list Z)) : list f64 := map (fun t => f64_of_Z (sqZ (ztarget t zs))) (seq 0 k).

Record tracks64 (k : nat) (t : tracker) (zs : list (list Z)) : Prop := {
  t6_n : tr_n t = f64_of_Z (Z.of_nat (length zs));
  t6_sum : lm_sum (tr_m t) = sums k zs;
  t6_sq : lm_sumsq (tr_m t) = sqs k zs;
  t6_mean : zs <> [] -> lm_mean (tr_m t) = map (fun s => Bdiv mode_NE s (f64_of_Z (Z.of_nat (length zs)))) (sums k zs) }.

Lemma sums_perm k a b : Permutation a b -> sums k a = sums k b.
Proof. intros H. apply map_ext. intros t. f_equal. apply sumZ_perm. now apply Permutation_map. Qed.
Lemma sqs_perm k a b : Permutation a b -> sqs k a = sqs k b.
Proof. intros H. apply map_ext. intros t. f_equal. apply sqZ_perm. now apply Permutation_map. Qed.

Lemma tracks64_perm k t a b : Permutation a b -> tracks64 k t a -> tracks64 k t b.
Proof.
  intros H [H1 H2 H3 H4]. constructor.
  - now rewrite <- (Permutation_length H).
  - now rewrite <- (sums_perm k _ _ H).
  - now rewrite <- (sqs_perm k _ _ H).
  - intros Hb. rewrite <- (sums_perm k _ _ H), <- (Permutation_length H). apply H4.
    intros ->. apply Permutation_nil in H. contradiction.
Qed.

Lemma map_seq_nthZ (l : list Z) k : length l = k -> map (fun t => nth t l 0%Z) (seq 0 k) = l.
Proof.
  intros <-. induction l as [|x l IH]; [reflexivity|]. cbn [length seq map nth]. f_equal.
  rewrite <- seq_shift, map_map. exact IH.
Qed.

Lemma map2_Z (op : f64 -> f64 -> f64) (h : Z -> Z -> Z) g l k :
  (forall t, (t < k)%nat -> op (f64_of_Z (g t)) (f64_of_Z (nth t l 0%Z)) = f64_of_Z (h (g t) (nth t l 0%Z))) -> length l = k ->
  map2 op (map (fun t => f64_of_Z (g t)) (seq 0 k)) (map f64_of_Z l) = map (fun t => f64_of_Z (h (g t) (nth t l 0%Z))) (seq 0 k).
Proof.
  intros H L. rewrite <- (map_seq_nthZ l k L) at 1. rewrite map_map, map2_map_map. apply map_ext_in. intros t Ht.
  apply H. apply in_seq in Ht. lia.
Qed.

Lemma entry_bound t l : Forall (fun z => (Z.abs z <= M)%Z) l -> (Z.abs (nth t l 0%Z) <= M)%Z.
Proof.
  intros H. destruct (nth_in_or_default t l 0%Z) as [Hi| ->]; [|cbn; lia]. rewrite Forall_forall in H. auto.
Qed.

Lemma sums_snoc k zs l : fits (zs ++ [l]) -> length l = k ->
  map2 (Bplus mode_NE) (sums k zs) (map f64_of_Z l) = sums k (zs ++ [l]).
Proof.
  intros Hf Hl. unfold sums. rewrite (map2_Z (Bplus mode_NE) Z.add (fun t => sumZ (ztarget t zs)) l k); auto.
  - apply map_ext. intros t. f_equal. rewrite ztarget_app, sumZ_app. cbn [ztarget map sumZ fold_right]. lia.
  - intros t _. assert (Hl' : Forall (fun z => (Z.abs z <= M)%Z) l).
    { destruct Hf as [Hb _]. apply bounded_app in Hb as [_ Hb]. now apply bounded_cons in Hb. }
    pose proof (fits_sum t _ Hf) as Hs. rewrite ztarget_app, sumZ_app in Hs. cbn [ztarget map sumZ fold_right] in Hs.
    apply plus_Z.
    + apply fits_sum. eapply fits_app_l; eauto.
    + pose proof (entry_bound t l Hl'). apply fits_app_r in Hf as [_ Hf]. cbn [length] in Hf. nia.
    + fold (ztarget t zs) in Hs. rewrite Z.add_0_r in Hs. exact Hs.
Qed.

Lemma square_entry t l : Forall (fun z => (Z.abs z <= M)%Z) l -> (M * M <= 2 ^ 53)%Z ->
  Bmult mode_NE (f64_of_Z (nth t l 0%Z)) (f64_of_Z (nth t l 0%Z)) = f64_of_Z (nth t l 0%Z * nth t l 0%Z) /\
  (Z.abs (nth t l 0%Z * nth t l 0%Z) <= 2 ^ 53)%Z.
Proof.
  intros H HMM. pose proof (entry_bound t l H) as Hb. set (x := nth t l 0%Z) in *.
  assert (x * x <= M * M)%Z by (rewrite <- (Z.abs_square x); nia).
  split; [apply square_Z; lia|]. rewrite Z.abs_eq; nia.
Qed.

Lemma sqs_snoc k zs l : fits (zs ++ [l]) -> length l = k ->
  map2 (@sqacc (f64_ops P)) (sqs k zs) (map f64_of_Z l) = sqs k (zs ++ [l]).
Proof.
  intros Hf Hl. unfold sqs. etransitivity; [apply (map2_Z (@sqacc (f64_ops P)) (fun q x => (q + x * x)%Z) (fun t => sqZ (ztarget t zs)) l k); auto|].
  - intros t _. assert (Hl' : Forall (fun z => (Z.abs z <= M)%Z) l).
    { destruct Hf as [Hb _]. apply bounded_app in Hb as [_ Hb]. now apply bounded_cons in Hb. }
    pose proof (fits_sq t _ Hf) as Hs. rewrite ztarget_app, sqZ_app in Hs. cbn [ztarget map sqZ fold_right] in Hs.
    pose proof (fits_sq t _ (fits_app_l _ _ Hf)) as Hs0.
    apply fits_app_r in Hf as [_ Hf]. cbn [length] in Hf.
    destruct (square_entry t l Hl') as [E Hq]; [lia|].
    unfold sqacc. cbn [fadd fmul f64_ops]. rewrite E. apply plus_Z; auto.
    fold (ztarget t zs) in Hs. rewrite Z.add_0_r in Hs. exact Hs.
  - apply map_ext. intros t. f_equal. rewrite ztarget_app, sqZ_app. cbn [ztarget map sqZ fold_right]. lia.
Qed.

Lemma sums_tail k zs l : fits (l :: zs) -> length l = k ->
  map2 (Bminus mode_NE) (sums k (l :: zs)) (map f64_of_Z l) = sums k zs.
Proof.
  intros Hf Hl. unfold sums. rewrite (map2_Z (Bminus mode_NE) Z.sub (fun t => sumZ (ztarget t (l :: zs))) l k); auto.
  - apply map_ext. intros t. f_equal. cbn [ztarget map sumZ fold_right]. fold (ztarget t zs) (sumZ (ztarget t zs)). lia.
  - intros t _. pose proof (fits_sum t _ Hf) as Hs.
    pose proof (fits_sum t _ (fits_app_r [l] zs Hf)) as Hs0.
    destruct (bounded_cons _ _ _ (proj1 Hf)) as [Hl' _]. pose proof (entry_bound t l Hl') as He.
    apply minus_Z; auto.
    + destruct Hf as [_ Hf]. cbn [length] in Hf. nia.
    + cbn [ztarget map sumZ fold_right]. fold (ztarget t zs) (sumZ (ztarget t zs)).
      replace (nth t l 0 + sumZ (ztarget t zs) - nth t l 0)%Z with (sumZ (ztarget t zs)) by lia. exact Hs0.
Qed.

Lemma sqs_tail k zs l : fits (l :: zs) -> length l = k ->
  map2 (@sqdec (f64_ops P)) (sqs k (l :: zs)) (map f64_of_Z l) = sqs k zs.
Proof.
  intros Hf Hl. unfold sqs. etransitivity; [apply (map2_Z (@sqdec (f64_ops P)) (fun q x => (q - x * x)%Z) (fun t => sqZ (ztarget t (l :: zs))) l k); auto|].
  - intros t _. pose proof (fits_sq t _ Hf) as Hs. pose proof (fits_sq t _ (fits_app_r [l] zs Hf)) as Hs0.
    destruct (bounded_cons _ _ _ (proj1 Hf)) as [Hl' _].
    assert (HMM : (M * M <= 2 ^ 53)%Z) by (destruct Hf as [_ Hf]; cbn [length] in Hf; nia).
    destruct (square_entry t l Hl' HMM) as [E Hq].
    unfold sqdec. cbn [fsub fmul f64_ops]. rewrite E. apply minus_Z; auto.
    cbn [ztarget map sqZ fold_right]. fold (ztarget t zs) (sqZ (ztarget t zs)).
    replace (nth t l 0 * nth t l 0 + sqZ (ztarget t zs) - nth t l 0 * nth t l 0)%Z with (sqZ (ztarget t zs)) by lia. exact Hs0.
  - apply map_ext. intros t. f_equal. cbn [ztarget map sqZ fold_right]. fold (ztarget t zs) (sqZ (ztarget t zs)). lia.
Qed.

Lemma tracks64_pleft k t zs l : tracks64 k t zs -> fits (zs ++ [l]) -> length l = k ->
  tracks64 k (pleft t (map f64_of_Z l)) (zs ++ [l]).
Proof.
  intros [H1 H2 H3 H4] Hf Hl. unfold pleft.
  assert (ES : map2 (@fadd (f64_ops P)) (lm_sum (tr_m t)) (map f64_of_Z l) = sums k (zs ++ [l])) by (rewrite H2; now apply sums_snoc).
  assert (EN : fadd (tr_n t) f1 = f64_of_Z (Z.of_nat (length (zs ++ [l])))).
  { rewrite H1. pose proof (fits_length _ Hf) as HL. rewrite app_length in *. cbn [length] in *.
    cbn [fadd f1 f64_ops]. rewrite f64_of_Z_succ by lia. f_equal. lia. }
  constructor; cbn [tr_n tr_m lm_sum lm_sumsq lm_mean]; auto.
  - rewrite H3. now apply sqs_snoc.
  - intros _. rewrite ES, EN. reflexivity.
Qed.

Lemma tracks64_pright k t zs l : tracks64 k t (l :: zs) -> fits (l :: zs) -> length l = k ->
  tracks64 k (pright t (map f64_of_Z l)) zs.
Proof.
  intros [H1 H2 H3 H4] Hf Hl. unfold pright.
  assert (ES : map2 (@fsub (f64_ops P)) (lm_sum (tr_m t)) (map f64_of_Z l) = sums k zs) by (rewrite H2; now apply sums_tail).
  assert (EN : fsub (tr_n t) f1 = f64_of_Z (Z.of_nat (length zs))).
  { rewrite H1. pose proof (fits_length _ Hf) as HL. cbn [length] in *.
    cbn [fsub f1 f64_ops]. rewrite Bone_of_Z, minus_Z by lia. f_equal. lia. }
  constructor; cbn [tr_n tr_m lm_sum lm_sumsq lm_mean]; auto.
  - rewrite H3. now apply sqs_tail.
  - intros _. rewrite ES, EN. reflexivity.
Qed.

Lemma zero_Z : (B754_zero false : f64) = f64_of_Z 0.
Proof. reflexivity. Qed.

Lemma repeat_zero k : repeat (B754_zero false : f64) k = map (fun t => f64_of_Z 0) (seq 0 k).
Proof. rewrite <- zero_Z. apply repeat_map_seq. Qed.

Lemma tracks64_zero k : tracks64 k (zero_tracker k) [].
Proof.
  constructor; cbn [zero_tracker tr_n tr_m lm_sum lm_sumsq lm_mean]; try reflexivity; try congruence.
  - apply repeat_zero.
  - apply repeat_zero.
Qed.

Lemma colsum_Z k zs : fits zs -> rectangular k zs -> colsum k (fz zs) = sums k zs.
Proof.
  intros Hf Hr. unfold colsum. change (repeat f0 k) with (repeat (B754_zero false : f64) k). rewrite repeat_zero.
  change (map (fun t => f64_of_Z 0) (seq 0 k)) with (sums k []).
  cut (forall b a, fits (a ++ b) -> rectangular k b -> fold_left (map2 (Bplus mode_NE)) (fz b) (sums k a) = sums k (a ++ b)).
  { intros H. apply (H zs []); auto. }
  clear zs Hf Hr. induction b as [|l b IH]; intros a Hf Hr; [now rewrite app_nil_r|].
  cbn [fz map fold_left]. inversion Hr as [|? ? Hl Hr']; subst x l0.
  assert (Hf' : fits ((a ++ [l]) ++ b)) by now rewrite <- app_assoc.
  rewrite sums_snoc; auto; [|eapply fits_app_l; eauto]. fold (fz b). rewrite IH; auto. now rewrite <- app_assoc.
Qed.

Lemma colsumsq_Z k zs : fits zs -> rectangular k zs -> colsumsq k (fz zs) = sqs k zs.
Proof.
  intros Hf Hr. unfold colsumsq. change (repeat f0 k) with (repeat (B754_zero false : f64) k). rewrite repeat_zero.
  change (map (fun t => f64_of_Z 0) (seq 0 k)) with (sqs k []).
  cut (forall b a, fits (a ++ b) -> rectangular k b -> fold_left (map2 (@sqacc (f64_ops P))) (fz b) (sqs k a) = sqs k (a ++ b)).
  { intros H. apply (H zs []); auto. }
  clear zs Hf Hr. induction b as [|l b IH]; intros a Hf Hr; [now rewrite app_nil_r|].
  cbn [fz map fold_left]. inversion Hr as [|? ? Hl Hr']; subst x l0.
  assert (Hf' : fits ((a ++ [l]) ++ b)) by now rewrite <- app_assoc.
  rewrite sqs_snoc; auto; [|eapply fits_app_l; eauto]. fold (fz b). rewrite IH; auto. now rewrite <- app_assoc.
Qed.

Lemma tracks64_total k zs : fits zs -> rectangular k zs -> tracks64 k (ptotal k (fz zs)) zs.
Proof.
  intros Hf Hr. unfold ptotal, pmetrics. constructor; cbn [tr_n tr_m lm_sum lm_sumsq lm_mean].
  - unfold fz. rewrite map_length. reflexivity.
  - now apply colsum_Z.
  - now apply colsumsq_Z.
  - intros _. rewrite colsum_Z by auto. unfold fz. rewrite map_length. reflexivity.
Qed.

(* ------------------------------------------------------------------ *)
(** ** Variances, losses and their errors *)

Definition vecvar (k : nat) (zs : list (list Z)) : list f64 :=
  map (fun t => var64 (sumZ (ztarget t zs)) (sqZ (ztarget t zs)) (Z.of_nat (length zs))) (seq 0 k).

Lemma tracks64_pvar k t zs : tracks64 k t zs -> zs <> [] -> pvar (tr_m t) (tr_n t) = vecvar k zs.
Proof.
  intros [H1 H2 H3 H4] Hne. unfold pvar. rewrite (H4 Hne), H3, H1. unfold sums, sqs.
  rewrite map_map, map2_map_map. reflexivity.
Qed.

Lemma MM_pos : 1 <= IZR (M * M).
Proof. apply IZR_le. nia. Qed.

Lemma var_ok t zs : fits zs -> zs <> [] ->
  let v := var64 (sumZ (ztarget t zs)) (sqZ (ztarget t zs)) (Z.of_nat (length zs)) in
  is_finite v = true /\ Rabs (B2R v) <= IZR (M * M) /\
  Rabs (B2R v - variance (target t (rz zs))) <= 7 * ulp1 * IZR (M * M).
Proof.
  intros [Hb Hs] Hne. cbv zeta. rewrite target_rz, variance_Z.
  2:{ intros E. apply map_eq_nil in E. contradiction. }
  rewrite ztarget_length. pose proof (ztarget_bounded M t zs ltac:(lia) Hb) as HB.
  apply var64_error; auto.
  - destruct zs; [congruence|cbn [length]; lia].
  - rewrite <- (ztarget_length t zs). now apply sumZ_bound.
  - rewrite <- (ztarget_length t zs). apply sqZ_bound; auto. lia.
Qed.

Definition losses (k : nat) (a b : list (list Z)) : list f64 :=
  map (fun t => loss64 (Z.of_nat (length a)) (Z.of_nat (length b))
         (var64 (sumZ (ztarget t a)) (sqZ (ztarget t a)) (Z.of_nat (length a)))
         (var64 (sumZ (ztarget t b)) (sqZ (ztarget t b)) (Z.of_nat (length b)))) (seq 0 k).

Lemma tracks64_ploss k l r a b : tracks64 k l a -> tracks64 k r b -> a <> [] -> b <> [] ->
  ploss l r = fsum (losses k a b).
Proof.
  intros Hl Hr Ha Hb. unfold ploss. rewrite (tracks64_pvar k l a Hl Ha), (tracks64_pvar k r b Hr Hb).
  rewrite (t6_n _ _ _ Hl), (t6_n _ _ _ Hr). unfold vecvar. rewrite map2_map_map. reflexivity.
Qed.

Lemma MM_fits zs : fits zs -> zs <> [] -> (M * M <= 2 ^ 53)%Z.
Proof. intros [_ H] Hne. destruct zs; [congruence|]. cbn [length] in H. nia. Qed.

Lemma MM_lt e zs : (53 < e)%Z -> fits zs -> zs <> [] -> IZR (M * M) < bpow radix2 e.
Proof.
  intros He Hf Hne. apply Rle_lt_trans with (bpow radix2 53); [|now apply bpow_lt].
  rewrite <- (IZR_Zpower radix2 53) by lia. apply IZR_le. eapply MM_fits; eauto.
Qed.

Lemma loss_ok t a b : fits (a ++ b) -> a <> [] -> b <> [] ->
  let v := loss64 (Z.of_nat (length a)) (Z.of_nat (length b))
         (var64 (sumZ (ztarget t a)) (sqZ (ztarget t a)) (Z.of_nat (length a)))
         (var64 (sumZ (ztarget t b)) (sqZ (ztarget t b)) (Z.of_nat (length b))) in
  is_finite v = true /\ Rabs (B2R v) <= 3 * IZR (M * M) /\
  Rabs (B2R v - (INR (length a) / INR (length a + length b) * variance (target t (rz a)) +
                 INR (length b) / INR (length a + length b) * variance (target t (rz b)))) <= 14 * ulp1 * IZR (M * M).
Proof.
  intros Hf Ha Hb. cbv zeta.
  destruct (var_ok t a (fits_app_l _ _ Hf) Ha) as (A1 & A2 & A3).
  destruct (var_ok t b (fits_app_r _ _ Hf) Hb) as (B1 & B2 & B3).
  rewrite !INR_IZR_INZ, Nat2Z.inj_add.
  assert (Hne : a ++ b <> []) by (destruct a; [congruence|discriminate]).
  apply loss64_error; auto.
  - destruct a; [congruence|cbn [length]; lia].
  - destruct b; [congruence|cbn [length]; lia].
  - pose proof (fits_length _ Hf) as H. rewrite app_length in H. lia.
  - exact MM_pos.
  - apply format_Z. rewrite Z.abs_eq by nia. eapply MM_fits; eauto.
  - apply (MM_lt 1000 (a ++ b)); auto. lia.
Qed.

Lemma fsum0_ok : is_finite (@fsum0 (f64_ops P)) = true /\ B2R (@fsum0 (f64_ops P)) = 0.
Proof. split; reflexivity. Qed.

Lemma sum_ok {A} (f : A -> f64) (g : A -> R) (C e : R) (l : list A) :
  1 <= C -> C < bpow radix2 900 -> 0 <= e -> (Z.of_nat (length l) <= 2 ^ 40)%Z ->
  (forall x, In x l -> is_finite (f x) = true /\ Rabs (B2R (f x)) <= C /\ Rabs (B2R (f x) - g x) <= e) ->
  let r := @fsum (f64_ops P) (map f l) in
  is_finite r = true /\ Rabs (B2R r) <= 2 * INR (length l) * C /\
  Rabs (B2R r - Rsum (map g l)) <= ulp1 * C * (INR (length l) * INR (length l)) + INR (length l) * eta1 + INR (length l) * e.
Proof.
  intros HC HC' He Hl H r. destruct fsum0_ok as [F0 V0].
  destruct (sum64_error C (map f l) (@fsum0 (f64_ops P)) 0%nat HC HC' F0) as (F1 & B1 & E1).
  - rewrite V0, Rabs_R0. cbn [INR]. lra.
  - rewrite map_length. exact Hl.
  - apply Forall_map, Forall_forall. intros x Hx. destruct (H x Hx) as (? & ? & _). auto.
  - fold (@fsum (f64_ops P) (map f l)) in *. change (fold_left (Bplus mode_NE) (map f l) (@fsum0 (f64_ops P))) with r in *.
    rewrite map_length in *. cbn [Nat.add] in *. split; auto. split; auto.
    rewrite V0 in E1. cbn [INR] in E1.
    assert (E2 : Rabs (Rsum' (map f l) - Rsum (map g l)) <= INR (length l) * e).
    { clear -H He. induction l as [|x l IH].
      - cbn [map Rsum' Rsum fold_right length INR]. rewrite Rminus_0_r, Rabs_R0. lra.
      - cbn [map Rsum' fold_right]. rewrite Rsum_cons. fold (Rsum' (map f l)).
        destruct (H x (or_introl eq_refl)) as (_ & _ & Hx).
        specialize (IH (fun y Hy => H y (or_intror Hy))). cbn [length]. rewrite S_INR.
        replace (B2R (f x) + Rsum' (map f l) - (g x + Rsum (map g l))) with
          ((B2R (f x) - g x) + (Rsum' (map f l) - Rsum (map g l))) by ring.
        eapply Rle_trans; [apply Rabs_triang|]. lra. }
    replace (B2R r - Rsum (map g l)) with ((B2R r - (0 + Rsum' (map f l))) + (Rsum' (map f l) - Rsum (map g l))) by ring.
    eapply Rle_trans; [apply Rabs_triang|]. lra.
Qed.

Lemma eta_MM k : INR k * eta1 <= ulp1 * IZR (M * M) * INR k * / 1000.
Proof.
  pose proof eta1_small as H. pose proof MM_pos as HM1. pose proof ulp1_pos. pose proof eta1_pos. pose proof (pos_INR k).
  assert (H10 : 1000 <= bpow radix2 100).
  { apply Rle_trans with (bpow radix2 10); [|apply bpow_le; lia]. change (bpow radix2 10) with 1024. lra. }
  assert (eta1 * 1000 <= ulp1) by (eapply Rle_trans; [apply Rmult_le_compat_l; [lra|exact H10]|exact H]).
  assert (eta1 * 1000 * 1 <= ulp1 * IZR (M * M)) by (apply Rmult_le_compat; lra).
  assert (eta1 * 1000 * INR k <= ulp1 * IZR (M * M) * INR k) by (apply Rmult_le_compat_r; lra). lra.
Qed.

(** Total variance of a node. *)
Lemma total_ok k zs : fits zs -> zs <> [] -> (Z.of_nat k <= 2 ^ 40)%Z ->
  let r := @fsum (f64_ops P) (vecvar k zs) in
  is_finite r = true /\ Rabs (B2R r) <= 2 * INR k * IZR (M * M) /\
  Rabs (B2R r - total_variance k (rz zs)) <= ulp1 * IZR (M * M) * (INR k * INR k + 7 * INR k + INR k * / 1000).
Proof.
  intros Hf Hne Hk. pose proof (eta_MM k) as He. pose proof ulp1_pos as Hu. pose proof MM_pos as HMM.
  destruct (sum_ok (fun t => var64 (sumZ (ztarget t zs)) (sqZ (ztarget t zs)) (Z.of_nat (length zs)))
    (fun t => variance (target t (rz zs))) (IZR (M * M)) (7 * ulp1 * IZR (M * M)) (seq 0 k)) as (H1 & H2 & H3).
  - exact HMM.
  - apply (MM_lt 900 zs); auto. lia.
  - nra.
  - now rewrite seq_length.
  - intros t _. now apply var_ok.
  - rewrite seq_length in *. fold (vecvar k zs) in *. split; [exact H1|]. split; [exact H2|].
    unfold total_variance. lra.
Qed.

(** Loss of a cut. *)
Lemma cut_ok k a b : fits (a ++ b) -> a <> [] -> b <> [] -> (Z.of_nat k <= 2 ^ 40)%Z ->
  let r := @fsum (f64_ops P) (losses k a b) in
  is_finite r = true /\ Rabs (B2R r) <= 6 * INR k * IZR (M * M) /\
  Rabs (B2R r - remaining_variance k (rz a) (rz b)) <= ulp1 * IZR (M * M) * (3 * (INR k * INR k) + 14 * INR k + INR k * / 1000).
Proof.
  intros Hf Ha Hb Hk. pose proof (eta_MM k) as He. pose proof ulp1_pos as Hu. pose proof MM_pos as HMM.
  assert (Hne : a ++ b <> []) by (destruct a; [congruence|discriminate]).
  destruct (sum_ok (fun t => loss64 (Z.of_nat (length a)) (Z.of_nat (length b))
         (var64 (sumZ (ztarget t a)) (sqZ (ztarget t a)) (Z.of_nat (length a)))
         (var64 (sumZ (ztarget t b)) (sqZ (ztarget t b)) (Z.of_nat (length b))))
    (fun t => INR (length a) / INR (length a + length b) * variance (target t (rz a)) +
              INR (length b) / INR (length a + length b) * variance (target t (rz b)))
    (3 * IZR (M * M)) (14 * ulp1 * IZR (M * M)) (seq 0 k)) as (H1 & H2 & H3).
  - lra.
  - pose proof (MM_lt 898 (a ++ b) ltac:(lia) Hf Hne) as H.
    replace (bpow radix2 900) with (bpow radix2 2 * bpow radix2 898) by (rewrite <- bpow_plus; reflexivity).
    change (bpow radix2 2) with 4. pose proof (bpow_gt_0 radix2 898). lra.
  - nra.
  - now rewrite seq_length.
  - intros t _. now apply loss_ok.
  - rewrite seq_length in *. fold (losses k a b) in *. split; [exact H1|]. split; [eapply Rle_trans; [exact H2|lra]|].
    unfold remaining_variance, total_variance. 
    rewrite !rz_length.
    rewrite <- !Rsum_map_mult, <- Rsum_map_plus. eapply Rle_trans; [exact H3|]. lra.
Qed.

End Int.
