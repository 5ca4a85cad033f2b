(** Rounding commutes with multiplication by a power of two, away from the ends of the exponent range. *)
From Coq Require Import Reals Lra Lia ZArith Bool.
From Flocq Require Import Core.
From Flocq Require Import IEEE754.BinarySingleNaN.
From Verif Require Import Base Num F64 ProofRound ProofError.
Local Open Scope R_scope.

Local Notation bpow := (bpow radix2).

(** [x] is a multiple of 2^q. *)
Definition grid (q : Z) (x : R) : Prop := exists z : Z, x = IZR z * bpow q.

Lemma grid_0 q : grid q 0.
Proof. exists 0%Z. ring. Qed.
Lemma grid_weaken q q' x : (q' <= q)%Z -> grid q x -> grid q' x.
Proof.
  intros H (z & ->). exists (z * 2 ^ (q - q'))%Z. rewrite mult_IZR, (IZR_Zpower radix2) by lia. rewrite Rmult_assoc, <- bpow_plus. do 2 f_equal. lia.
Qed.
Lemma grid_plus q x y : grid q x -> grid q y -> grid q (x + y).
Proof. intros (z & ->) (w & ->). exists (z + w)%Z. rewrite plus_IZR. ring. Qed.
Lemma grid_opp q x : grid q x -> grid q (- x).
Proof. intros (z & ->). exists (- z)%Z. rewrite opp_IZR. ring. Qed.
Lemma grid_minus q x y : grid q x -> grid q y -> grid q (x - y).
Proof. intros Hx Hy. apply grid_plus; auto. now apply grid_opp. Qed.
Lemma grid_mult q q' x y : grid q x -> grid q' y -> grid (q + q') (x * y).
Proof. intros (z & ->) (w & ->). exists (z * w)%Z. rewrite mult_IZR, bpow_plus. ring. Qed.
Lemma grid_least q x : grid q x -> x <> 0 -> bpow q <= Rabs x.
Proof.
  intros (z & ->) H. rewrite Rabs_mult, (Rabs_pos_eq (bpow q)) by apply bpow_ge_0. rewrite <- (Rmult_1_l (bpow q)) at 1.
  apply Rmult_le_compat_r; [apply bpow_ge_0|]. rewrite <- abs_IZR. apply IZR_le.
  assert (z <> 0)%Z by (intros ->; apply H; ring). lia.
Qed.

Lemma cexp_normal x : bpow (-1022) <= Rabs x -> cexp radix2 fexp64 x = (mag radix2 x - 53)%Z.
Proof.
  intros H. unfold cexp, SpecFloat.fexp, SpecFloat.emin. apply (mag_ge_bpow radix2 x (-1021)) in H. lia.
Qed.

(** Rounding stays on the grid. *)
Lemma rnd_grid q x : (-1074 <= q)%Z -> grid q x -> grid q (rnd x).
Proof.
  intros Hq (z & ->). destruct (Z_le_gt_dec q (cexp radix2 fexp64 (IZR z * bpow q))) as [H|H].
  - unfold round, F2R. cbn [Fnum Fexp]. eapply grid_weaken; [exact H|]. eexists; reflexivity.
  - rewrite rnd_format; [exists z; reflexivity|]. apply (generic_format_F2R radix2 fexp64 z q). intros _.
    unfold F2R. cbn [Fnum Fexp]. lia.
Qed.

(** A quotient of a number on the grid by a count, rounded, is on a finer grid. *)
Lemma rnd_grid_least q x : (-1022 <= q)%Z -> (x = 0 \/ bpow q <= Rabs x) -> grid (q - 52) (rnd x).
Proof.
  intros Hq [->|H]; [rewrite rnd_0; apply grid_0|]. unfold round, F2R. cbn [Fnum Fexp]. eapply grid_weaken; [|eexists; reflexivity].
  rewrite cexp_normal by (eapply Rle_trans; [apply bpow_le; exact Hq|exact H]). replace q with (q + 1 - 1)%Z in H by lia. apply mag_ge_bpow in H. lia.
Qed.

Lemma rnd_scale k x : (x = 0 \/ (bpow (-1022) <= Rabs x /\ bpow (-1022) <= Rabs (bpow k * x))) -> rnd (bpow k * x) = bpow k * rnd x.
Proof.
  intros [->|[H1 H2]]; [now rewrite Rmult_0_r, rnd_0, Rmult_0_r|].
  assert (Hx : x <> 0). { intros ->. rewrite Rabs_R0 in H1. pose proof (bpow_gt_0 radix2 (-1022)). lra. }
  unfold round, F2R, scaled_mantissa. cbn [Fnum Fexp]. rewrite (cexp_normal _ H1), (cexp_normal _ H2).
  rewrite (Rmult_comm (bpow k) x), mag_mult_bpow by auto.
  replace (x * bpow k * bpow (- (mag radix2 x + k - 53))) with (x * bpow (- (mag radix2 x - 53))).
  - replace (mag radix2 x + k - 53)%Z with (k + (mag radix2 x - 53))%Z by lia. rewrite bpow_plus. ring.
  - rewrite Rmult_assoc, <- bpow_plus. do 2 f_equal. lia.
Qed.

Lemma rnd_scale_grid k q x : (-1022 <= q)%Z -> grid q x -> grid q (bpow k * x) -> rnd (bpow k * x) = bpow k * rnd x.
Proof.
  intros Hq H1 H2. apply rnd_scale. destruct (Req_dec x 0) as [->|Hx]; [now left|right].
  assert (bpow k * x <> 0) by (pose proof (bpow_gt_0 radix2 k); apply Rmult_integral_contrapositive_currified; lra).
  split; (eapply Rle_trans; [apply bpow_le; exact Hq|now apply grid_least]).
Qed.

(** [y] is 2^k times [x]; both are multiples of 2^q and at most n 2^B. *)
Record sc (k q n B : Z) (x y : f64) : Prop := mkSc {
  sc_fx : is_finite x = true;
  sc_fy : is_finite y = true;
  sc_eq : B2R y = bpow k * B2R x;
  sc_gx : grid q (B2R x);
  sc_gy : grid q (B2R y);
  sc_bx : Rabs (B2R x) <= IZR n * bpow B;
  sc_by : Rabs (B2R y) <= IZR n * bpow B }.

Lemma sc_weaken k q n B q' n' B' x y : (q' <= q)%Z -> IZR n * bpow B <= IZR n' * bpow B' -> sc k q n B x y -> sc k q' n' B' x y.
Proof. intros Hq Hn []. constructor; auto; try (eapply grid_weaken; eauto); lra. Qed.

Lemma sc_shift k q n B q' a B' x y : (q' <= q)%Z -> (0 <= a)%Z -> (n <= 2 ^ a)%Z -> (B + a <= B')%Z -> sc k q n B x y -> sc k q' 1 B' x y.
Proof.
  intros Hq Ha Hn HB. apply sc_weaken; auto. rewrite Rmult_1_l. apply Rle_trans with (bpow (B + a)); [|now apply bpow_le].
  rewrite bpow_plus, Rmult_comm. apply Rmult_le_compat_l; [apply bpow_ge_0|]. rewrite <- (IZR_Zpower radix2) by auto. now apply IZR_le.
Qed.

Lemma bound_format n B : (Z.abs n <= 2 ^ 53)%Z -> (-1074 <= B)%Z -> generic_format radix2 fexp64 (IZR n * bpow B).
Proof.
  intros Hn HB. destruct (Z.eq_dec n 0) as [->|Hz]; [rewrite Rmult_0_l; apply generic_format_0|].
  destruct (Z.eq_dec (Z.abs n) (2 ^ 53)) as [E|E].
  - assert (n = 1 * 2 ^ 53 \/ n = - 2 ^ 53)%Z as [->| ->] by lia.
    + rewrite mult_IZR, Rmult_1_l. replace (IZR (2 ^ 53)) with (bpow 53) by (rewrite <- (IZR_Zpower radix2) by lia; reflexivity).
      rewrite <- bpow_plus. apply generic_format_bpow. unfold SpecFloat.fexp, SpecFloat.emin. lia.
    + rewrite opp_IZR, Ropp_mult_distr_l_reverse. apply generic_format_opp. replace (IZR (2 ^ 53)) with (bpow 53) by (rewrite <- (IZR_Zpower radix2) by lia; reflexivity).
      rewrite <- bpow_plus. apply generic_format_bpow. unfold SpecFloat.fexp, SpecFloat.emin. lia.
  - apply (generic_format_F2R radix2 fexp64 n B). intros _. unfold cexp, SpecFloat.fexp, SpecFloat.emin. unfold F2R. cbn [Fnum Fexp].
    rewrite mag_mult_bpow by (apply IZR_neq; auto). assert (mag radix2 (IZR n) <= 53)%Z.
    { apply mag_le_bpow; [apply IZR_neq; auto|]. rewrite <- abs_IZR. change (bpow 53) with (IZR (2 ^ 53)). apply IZR_lt. lia. }
    lia.
Qed.

Lemma rnd_bound n B x : (0 <= n <= 2 ^ 53)%Z -> (-1074 <= B)%Z -> Rabs x <= IZR n * bpow B -> Rabs (rnd x) <= IZR n * bpow B.
Proof.
  intros Hn HB H. assert (G := bound_format n B ltac:(lia) HB). apply Rabs_le_inv in H. apply Rabs_le. split.
  - rewrite <- (rnd_format (- (IZR n * bpow B))) by now apply generic_format_opp. apply rnd_le. lra.
  - rewrite <- (rnd_format (IZR n * bpow B)) by auto. apply rnd_le. lra.
Qed.

Lemma bound_lt n B x : (0 <= n <= 2 ^ 53)%Z -> (B <= 960)%Z -> Rabs x <= IZR n * bpow B -> Rabs x < bpow 1024.
Proof.
  intros Hn HB H. apply Rle_lt_trans with (1 := H). apply Rle_lt_trans with (bpow (53 + 960)); [|apply bpow_lt; lia]. rewrite bpow_plus.
  apply Rmult_le_compat; [apply IZR_le; lia|apply bpow_ge_0| |apply bpow_le; lia]. change (bpow 53) with (IZR (2 ^ 53)). apply IZR_le. lia.
Qed.

(** A rounded result of related exact results. *)
Lemma rounded_sc k q n B (x y : f64) (r s : R) :
  (0 <= n <= 2 ^ 53)%Z -> (-1074 <= B <= 960)%Z -> s = bpow k * r ->
  (r = 0 \/ (bpow (-1022) <= Rabs r /\ bpow (-1022) <= Rabs s)) ->
  Rabs r <= IZR n * bpow B -> Rabs s <= IZR n * bpow B -> grid q (rnd r) -> grid q (rnd s) ->
  (Rabs (rnd r) < bpow 1024 -> is_finite x = true /\ B2R x = rnd r) ->
  (Rabs (rnd s) < bpow 1024 -> is_finite y = true /\ B2R y = rnd s) -> sc k q n B x y.
Proof.
  intros Hn HB Es Hr Br Bs Gr Gs Hx Hy. apply rnd_bound in Br; [|lia|lia]. apply rnd_bound in Bs; [|lia|lia].
  destruct (Hx (bound_lt n B _ Hn (proj2 HB) Br)) as [Fx Vx]. destruct (Hy (bound_lt n B _ Hn (proj2 HB) Bs)) as [Fy Vy].
  constructor; rewrite ?Vx, ?Vy; auto. subst s. now apply rnd_scale.
Qed.

Lemma least_two k q r s : (-1022 <= q)%Z -> s = bpow k * r -> grid q r -> grid q s -> r = 0 \/ (bpow (-1022) <= Rabs r /\ bpow (-1022) <= Rabs s).
Proof.
  intros Hq Es Gr Gs. destruct (Req_dec r 0) as [->|Hr]; [now left|right]. assert (s <> 0) by (subst s; pose proof (bpow_gt_0 radix2 k); apply Rmult_integral_contrapositive_currified; lra).
  split; (eapply Rle_trans; [apply bpow_le; exact Hq|now apply grid_least]).
Qed.

Section Ops.
Variables (k q : Z).
Hypothesis Hq : (-1022 <= q)%Z.

Lemma plus_sc n m B x x' y y' : (0 <= n)%Z -> (0 <= m)%Z -> (n + m <= 2 ^ 53)%Z -> (-1074 <= B <= 960)%Z ->
  sc k q n B x x' -> sc k q m B y y' -> sc k q (n + m) B (Bplus mode_NE x y) (Bplus mode_NE x' y').
Proof.
  intros Hn Hm Hs HB [] [].
  assert (Es : B2R x' + B2R y' = bpow k * (B2R x + B2R y)) by (rewrite sc_eq0, sc_eq1; ring).
  eapply (rounded_sc _ _ _ _ _ _ (B2R x + B2R y) (B2R x' + B2R y')); auto.
  - lia.
  - eapply (least_two k q); auto; now apply grid_plus.
  - rewrite plus_IZR, Rmult_plus_distr_r. eapply Rle_trans; [apply Rabs_triang|]. now apply Rplus_le_compat.
  - rewrite plus_IZR, Rmult_plus_distr_r. eapply Rle_trans; [apply Rabs_triang|]. now apply Rplus_le_compat.
  - apply rnd_grid; [lia|]. now apply grid_plus.
  - apply rnd_grid; [lia|]. now apply grid_plus.
  - intros H. now apply plus_value.
  - intros H. now apply plus_value.
Qed.

Lemma minus_sc n m B x x' y y' : (0 <= n)%Z -> (0 <= m)%Z -> (n + m <= 2 ^ 53)%Z -> (-1074 <= B <= 960)%Z ->
  sc k q n B x x' -> sc k q m B y y' -> sc k q (n + m) B (Bminus mode_NE x y) (Bminus mode_NE x' y').
Proof.
  intros Hn Hm Hs HB [] [].
  assert (Es : B2R x' - B2R y' = bpow k * (B2R x - B2R y)) by (rewrite sc_eq0, sc_eq1; ring).
  assert (T : forall a b, Rabs (a - b) <= Rabs a + Rabs b) by (intros a b; unfold Rminus; eapply Rle_trans; [apply Rabs_triang|]; rewrite Rabs_Ropp; lra).
  eapply (rounded_sc _ _ _ _ _ _ (B2R x - B2R y) (B2R x' - B2R y')); auto.
  - lia.
  - eapply (least_two k q); auto; now apply grid_minus.
  - rewrite plus_IZR, Rmult_plus_distr_r. eapply Rle_trans; [apply T|]. now apply Rplus_le_compat.
  - rewrite plus_IZR, Rmult_plus_distr_r. eapply Rle_trans; [apply T|]. now apply Rplus_le_compat.
  - apply rnd_grid; [lia|]. now apply grid_minus.
  - apply rnd_grid; [lia|]. now apply grid_minus.
  - intros H. now apply minus_value.
  - intros H. now apply minus_value.
Qed.
End Ops.

Lemma mult_sc k l q q' B B' x x' y y' : (-1022 <= q + q')%Z -> (-1074 <= B + B' <= 960)%Z ->
  sc k q 1 B x x' -> sc l q' 1 B' y y' -> sc (k + l) (q + q') 1 (B + B') (Bmult mode_NE x y) (Bmult mode_NE x' y').
Proof.
  intros Hq HB [] [].
  assert (Es : B2R x' * B2R y' = bpow (k + l) * (B2R x * B2R y)) by (rewrite sc_eq0, sc_eq1, bpow_plus; ring).
  eapply (rounded_sc _ _ _ _ _ _ (B2R x * B2R y) (B2R x' * B2R y')); auto.
  - lia.
  - eapply (least_two (k + l) (q + q')); auto; now apply grid_mult.
  - rewrite Rabs_mult, bpow_plus. rewrite Rmult_1_l in *. apply Rmult_le_compat; auto using Rabs_pos.
  - rewrite Rabs_mult, bpow_plus. rewrite Rmult_1_l in *. apply Rmult_le_compat; auto using Rabs_pos.
  - apply rnd_grid; [lia|]. now apply grid_mult.
  - apply rnd_grid; [lia|]. now apply grid_mult.
  - intros H. now apply mult_value.
  - intros H. now apply mult_value.
Qed.

Lemma count_sc j a : (Z.of_nat j <= 2 ^ a)%Z -> (0 <= a <= 53)%Z -> sc 0 0 1 a (f64_of_Z (Z.of_nat j)) (f64_of_Z (Z.of_nat j)).
Proof.
  intros H Ha. assert (2 ^ a <= 2 ^ 53)%Z by (apply Z.pow_le_mono_r; lia).
  destruct (of_Z_exact (Z.of_nat j)) as (V & Fj & _); [lia|].
  assert (Rabs (IZR (Z.of_nat j)) <= 1 * bpow a).
  { rewrite Rmult_1_l, <- (IZR_Zpower radix2) by lia. rewrite <- abs_IZR. apply IZR_le. change (Z.pow (radix_val radix2) a) with (2 ^ a)%Z. lia. }
  constructor; rewrite ?V; auto; [cbn [Raux.bpow]; ring| |]; exists (Z.of_nat j); cbn [Raux.bpow]; ring.
Qed.

Lemma div_sc k q n B x x' j : (-980 <= q)%Z -> (1 <= j)%nat -> (Z.of_nat j <= 2 ^ 40)%Z -> (0 <= n <= 2 ^ 53)%Z -> (-1074 <= B <= 960)%Z ->
  sc k q n B x x' -> sc k (q - 92) n B (Bdiv mode_NE x (f64_of_Z (Z.of_nat j))) (Bdiv mode_NE x' (f64_of_Z (Z.of_nat j))).
Proof.
  intros Hq Hj1 Hj Hn HB []. destruct (of_Z_exact (Z.of_nat j)) as (V & Fj & _); [lia|].
  assert (P1 : 1 <= IZR (Z.of_nat j)) by (apply IZR_le; lia). assert (P2 : IZR (Z.of_nat j) <= bpow 40) by (change (bpow 40) with (IZR (2 ^ 40)); apply IZR_le; lia).
  set (c := IZR (Z.of_nat j)) in *.
  assert (Es : B2R x' / c = bpow k * (B2R x / c)) by (rewrite sc_eq0; field; lra).
  assert (L : forall r, grid q r -> r / c = 0 \/ bpow (q - 40) <= Rabs (r / c)).
  { intros r G. destruct (Req_dec r 0) as [->|Hr]; [left; field; lra|right]. apply (grid_least q) in G; auto.
    unfold Rdiv. rewrite Rabs_mult, (Rabs_pos_eq (/ c)) by (apply Rlt_le, Rinv_0_lt_compat; lra).
    apply Rmult_le_reg_r with c; [lra|]. rewrite Rmult_assoc, Rinv_l, Rmult_1_r by lra.
    eapply Rle_trans; [|exact G]. replace q with (q - 40 + 40)%Z at 2 by lia. rewrite bpow_plus. apply Rmult_le_compat_l; [apply bpow_ge_0|auto]. }
  assert (Hle : forall r, Rabs r <= IZR n * bpow B -> Rabs (r / c) <= IZR n * bpow B).
  { intros r Hr. unfold Rdiv. rewrite Rabs_mult, (Rabs_pos_eq (/ c)) by (apply Rlt_le, Rinv_0_lt_compat; lra).
    apply Rmult_le_reg_r with c; [lra|]. rewrite Rmult_assoc, Rinv_l, Rmult_1_r by lra. pose proof (Rabs_pos r). nra. }
  eapply (rounded_sc _ _ _ _ _ _ (B2R x / c) (B2R x' / c)); auto.
  - destruct (L _ sc_gx0) as [E|E]; [now left|]. destruct (L _ sc_gy0) as [E'|E'].
    + left. pose proof (bpow_gt_0 radix2 k). rewrite Es in E'. apply Rmult_integral in E' as [E'|E']; [lra|auto].
    + right. split; (eapply Rle_trans; [|eassumption]); apply bpow_le; lia.
  - replace (q - 92)%Z with (q - 40 - 52)%Z by lia. apply rnd_grid_least; [lia|auto].
  - replace (q - 92)%Z with (q - 40 - 52)%Z by lia. apply rnd_grid_least; [lia|auto].
  - intros H. rewrite <- V in H |- *. apply div_value; auto. rewrite V. lra.
  - intros H. rewrite <- V in H |- *. apply div_value; auto. rewrite V. lra.
Qed.

Lemma zero_sc k q n B s s' : (0 <= n)%Z -> sc k q n B (B754_zero s) (B754_zero s').
Proof.
  intros Hn. assert (0 <= IZR n * bpow B) by (apply Rmult_le_pos; [now apply IZR_le|apply bpow_ge_0]).
  constructor; cbn [is_finite B2R]; auto using grid_0; rewrite ?Rabs_R0; auto. ring.
Qed.

(** Comparisons. *)
Lemma less_sc k q n B q' n' B' x x' y y' : sc k q n B x x' -> sc k q' n' B' y y' -> Bltb x y = Bltb x' y'.
Proof.
  intros [] []. rewrite !Bltb_correct by auto. rewrite sc_eq0, sc_eq1. pose proof (bpow_gt_0 radix2 k) as H.
  destruct (Rlt_bool_spec (B2R x) (B2R y)) as [L|L]; symmetry; [apply Rlt_bool_true; now apply Rmult_lt_compat_l|apply Rlt_bool_false; apply Rmult_le_compat_l; lra].
Qed.

Lemma zero_eqb_sc k q n B x x' s : sc k q n B x x' -> Beqb x (B754_zero s) = Beqb x' (B754_zero s).
Proof.
  intros []. rewrite !Beqb_correct by auto. cbn [B2R]. rewrite sc_eq0. pose proof (bpow_gt_0 radix2 k) as H.
  destruct (Req_bool_spec (B2R x) 0) as [->|L]; symmetry; [apply Req_bool_true; ring|apply Req_bool_false]. apply Rmult_integral_contrapositive_currified; lra.
Qed.
