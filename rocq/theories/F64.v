(** IEEE-754 binary64 instance of [NumOps] (Flocq), and its comparison laws. *)
From Coq Require Import Reals Lra.
From Flocq Require Import Core.
From Flocq Require Import IEEE754.BinarySingleNaN.
From Verif Require Import Base Num.

Definition f64 : Type := binary_float 53 1024.
#[export] Instance prec_gt_0_53 : FLX.Prec_gt_0 53 := eq_refl.
#[export] Instance prec_lt_emax_53 : Prec_lt_emax 53 1024 := eq_refl.

(** What IEEE-754 and the Rust documentation leave open: the value of [exp], of [powf(x, 2.)], and
    the sign of the zero that [Iterator::sum] starts from (it differs between Rust releases). *)
Record platform := mkPlatform {
  p_exp : f64 -> f64;
  p_sqr : f64 -> f64;
  p_sum_from_negative_zero : bool }.
Existing Class platform.

Definition f64_of_Z (z : Z) : f64 := binary_normalize 53 1024 _ _ mode_NE z 0 false.

(** [f64 as usize]: truncation toward zero, saturating at the bounds; NaN becomes 0. *)
Definition f64_to_usize (x : f64) : N :=
  match x with
  | B754_nan => 0%N
  | B754_infinity true => 0%N
  | B754_infinity false => (2 ^ 64 - 1)%N
  | _ => N.min (Z.to_N (Btrunc x)) (2 ^ 64 - 1)
  end.

#[export] Instance f64_ops (P : platform) : NumOps := {|
  F := f64;
  f0 := B754_zero false;
  f1 := Bone;
  finf := B754_infinity false;
  fninf := B754_infinity true;
  fsum0 := B754_zero (p_sum_from_negative_zero P);
  fadd := Bplus mode_NE;
  fsub := Bminus mode_NE;
  fmul := Bmult mode_NE;
  fdiv := Bdiv mode_NE;
  fneg := Bopp;
  fabs := Babs;
  fexp := p_exp P;
  fsqr := p_sqr P;
  fltb := Bltb;
  fleb := Bleb;
  feqb := Beqb;
  f_of_nat := fun n => f64_of_Z (Z.of_nat n);
  f_to_usize := f64_to_usize |}.

(** A concrete platform for examples and counterexamples: [powf(x,2)] is [x*x]; [exp] is only correct
    at 0 (and otherwise a NaN), which the examples that use it respect. *)
Definition demo_platform : platform :=
  mkPlatform (fun x => match x with B754_zero _ => Bone | _ => B754_nan end)
             (fun x => Bmult mode_NE x x) false.

(* ------------------------------------------------------------------ *)
(** ** Order *)

Definition rank (x : f64) : R :=
  match x with
  | B754_infinity true => - bpow radix2 1024
  | B754_infinity false => bpow radix2 1024
  | _ => B2R x
  end.

Lemma Bleb_rank (x y : f64) :
  Bleb x y = negb (is_nan x) && negb (is_nan y) && Rle_bool (rank x) (rank y).
Proof.
  destruct (is_finite x) eqn:Fx, (is_finite y) eqn:Fy.
  - rewrite Bleb_correct by assumption.
    destruct x as [sx|[|]| |sx mx ex Hx], y as [sy|[|]| |sy my ey Hy]; try discriminate; reflexivity.
  - destruct y as [sy|[|]| |sy my ey Hy]; try discriminate;
      pose proof (abs_B2R_lt_emax 53 1024 x) as Hx0; apply Rabs_lt_inv in Hx0;
      destruct x as [sx|[|]| |sx mx ex Hx]; try discriminate; cbn [is_nan negb andb rank];
      try (rewrite Rle_bool_false by lra); try (rewrite Rle_bool_true by lra);
      try reflexivity; cbn; destruct sx; reflexivity.
  - destruct x as [sx|[|]| |sx mx ex Hx]; try discriminate;
      pose proof (abs_B2R_lt_emax 53 1024 y) as Hy0; apply Rabs_lt_inv in Hy0;
      destruct y as [sy|[|]| |sy my ey Hy]; try discriminate; cbn [is_nan negb andb rank];
      try (rewrite Rle_bool_false by lra); try (rewrite Rle_bool_true by lra);
      try reflexivity; cbn; destruct sy; reflexivity.
  - pose proof (bpow_gt_0 radix2 1024).
    destruct x as [sx|[|]| |sx mx ex Hx]; try discriminate;
    destruct y as [sy|[|]| |sy my ey Hy]; try discriminate; cbn [is_nan negb andb rank];
      try (rewrite Rle_bool_false by lra); try (rewrite Rle_bool_true by lra); reflexivity.
Qed.

Lemma Bleb_swap_cmp (x y : f64) :
  Beqb x y = Bleb x y && Bleb y x /\ Bltb x y = Bleb x y && negb (Bleb y x).
Proof.
  pose proof (Bcompare_swap 53 1024 x y) as H.
  unfold Beqb, Bltb, Bleb, SpecFloat.SFeqb, SpecFloat.SFltb, SpecFloat.SFleb, Bcompare in *. rewrite H.
  destruct (SpecFloat.SFcompare (B2SF x) (B2SF y)) as [[| |]|]; split; reflexivity.
Qed.

Lemma Bleb_refl (x : f64) : Bleb x x = negb (is_nan x).
Proof.
  rewrite Bleb_rank, Rle_bool_true by lra. destruct (is_nan x); reflexivity.
Qed.

Lemma rank_ge (x : f64) : (- bpow radix2 1024 <= rank x)%R.
Proof.
  pose proof (bpow_gt_0 radix2 1024).
  pose proof (abs_B2R_lt_emax 53 1024 x) as Hx0; apply Rabs_lt_inv in Hx0.
  destruct x as [sx|[|]| |sx mx ex Hx]; cbn [rank] in *; try lra.
Qed.

(* ------------------------------------------------------------------ *)
(** ** Small integers are exact *)

Lemma f64_of_Z_exact (z : Z) :
  (0 <= z <= 2 ^ 53)%Z ->
  B2R (f64_of_Z z) = IZR z /\ is_finite (f64_of_Z z) = true /\ Bsign (f64_of_Z z) = false.
Proof.
  intros Hz. unfold f64_of_Z.
  pose proof (binary_normalize_correct 53 1024 _ _ mode_NE z 0 false) as H. cbv zeta in H.
  assert (Hx : F2R (Float radix2 z 0) = IZR z) by (unfold F2R; simpl; lra).
  rewrite Hx in H.
  assert (Hr : round radix2 (SpecFloat.fexp 53 1024) (round_mode mode_NE) (IZR z) = IZR z).
  { apply round_generic; [typeclasses eauto|].
    destruct (Z.eq_dec z (2 ^ 53)) as [->|Hne].
    - change (IZR (2 ^ 53)) with (IZR (Zpower radix2 53)). rewrite IZR_Zpower by lia.
      apply generic_format_bpow. unfold SpecFloat.fexp, SpecFloat.emin; lia.
    - apply generic_format_FLT. exists (Float radix2 z 0); simpl; try lia.
      + now rewrite Hx.
      + unfold SpecFloat.emin; lia. }
  rewrite Hr in H.
  rewrite Rlt_bool_true in H.
  - destruct H as (H1 & H2 & H3). repeat split; try assumption.
    rewrite H3. destruct (Rcompare_spec (IZR z) 0) as [Hc|Hc|Hc]; try reflexivity.
    apply lt_IZR in Hc. lia.
  - rewrite Rabs_pos_eq by (apply IZR_le; lia).
    apply Rle_lt_trans with (IZR (2 ^ 53)); [apply IZR_le; lia|].
    change (IZR (2 ^ 53)) with (IZR (Zpower radix2 53)). rewrite IZR_Zpower by lia.
    apply bpow_lt. lia.
Qed.

Lemma Bone_of_Z : Bone = f64_of_Z 1.
Proof.
  destruct (f64_of_Z_exact 1) as (H1 & H2 & H3); [lia|].
  apply B2R_Bsign_inj.
  - apply is_finite_Bone.
  - exact H2.
  - rewrite Bone_correct. now rewrite H1.
  - rewrite Bsign_Bone. now rewrite H3.
Qed.

Lemma f64_of_Z_succ (z : Z) :
  (0 <= z < 2 ^ 53)%Z -> Bplus mode_NE (f64_of_Z z) Bone = f64_of_Z (z + 1).
Proof.
  intros Hz. rewrite Bone_of_Z.
  destruct (f64_of_Z_exact z) as (A1 & A2 & A3); [lia|].
  destruct (f64_of_Z_exact 1) as (B1 & B2 & B3); [lia|].
  destruct (f64_of_Z_exact (z + 1)) as (C1 & C2 & C3); [lia|].
  pose proof (Bplus_correct 53 1024 _ _ mode_NE _ _ A2 B2) as H.
  rewrite A1, B1 in H. rewrite <- plus_IZR in H.
  assert (Hr : round radix2 (SpecFloat.fexp 53 1024) (round_mode mode_NE) (IZR (z + 1)) = IZR (z + 1)).
  { rewrite <- C1. apply round_generic; [typeclasses eauto|]. apply generic_format_B2R. }
  rewrite Hr in H. rewrite Rlt_bool_true in H by (rewrite <- C1; apply abs_B2R_lt_emax).
  destruct H as (H1 & H2 & H3).
  apply B2R_Bsign_inj; try assumption.
  - now rewrite H1, C1.
  - rewrite H3, C3. destruct (Rcompare_spec (IZR (z + 1)) 0) as [Hc|Hc|Hc]; try reflexivity.
    + apply lt_IZR in Hc. lia.
    + now rewrite A3.
Qed.

Lemma f64_to_usize_Z (z : Z) : (0 <= z <= 2 ^ 53)%Z -> f64_to_usize (f64_of_Z z) = Z.to_N z.
Proof.
  intros Hz. destruct (f64_of_Z_exact z Hz) as (A1 & A2 & _).
  assert (Ht : Btrunc (f64_of_Z z) = z).
  { apply eq_IZR. rewrite Btrunc_correct, A1.
    apply round_generic; [typeclasses eauto|].
    apply generic_format_FIX. exists (Float radix2 z 0); [|reflexivity].
    unfold F2R; simpl; lra.
    exact prec_lt_emax_53. }
  unfold f64_to_usize. rewrite Ht.
  destruct (f64_of_Z z) as [s|s| |s m e H]; try discriminate; rewrite N.min_l; try reflexivity; lia.
Qed.

Theorem f64_laws (P : platform) : NumLaws (f64_ops P).
Proof.
  constructor; cbn -[Z.pow f64_of_Z Bplus Bone f64_to_usize].
  - intros x y z. rewrite !Bleb_rank.
    destruct (is_nan x), (is_nan y), (is_nan z); simpl; try discriminate.
    destruct (Rle_bool_spec (rank x) (rank y)), (Rle_bool_spec (rank y) (rank z)),
      (Rle_bool_spec (rank x) (rank z)); intros; try discriminate; try reflexivity; lra.
  - intros x y. rewrite !Bleb_refl, !Bleb_rank. intros -> ->. simpl.
    destruct (Rle_bool_spec (rank x) (rank y)), (Rle_bool_spec (rank y) (rank x)); auto; lra.
  - intros x y. rewrite Bleb_refl, Bleb_rank. destruct (is_nan x); auto.
  - intros x y. rewrite Bleb_refl, Bleb_rank. destruct (is_nan x), (is_nan y); auto.
  - intros x y. apply Bleb_swap_cmp.
  - intros x y. apply Bleb_swap_cmp.
  - reflexivity.
  - intros x. destruct x as [s|[|]| |s m e H]; reflexivity.
  - intros x. rewrite Bleb_refl, Bleb_rank. cbn [is_nan negb andb rank].
    rewrite Rle_bool_true by apply rank_ge. now rewrite andb_true_r.
  - reflexivity.
  - intros n Hn. rewrite f64_of_Z_succ by lia. f_equal. lia.
  - intros n Hn. rewrite f64_to_usize_Z by lia. lia.
Qed.
