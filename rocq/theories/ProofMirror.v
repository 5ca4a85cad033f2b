(** Binary64 arithmetic does not distinguish a number from its mirror image: negating the operands of an
    addition, a subtraction, or one operand of a product or quotient negates the result, for all numbers,
    infinities and NaNs included, up to the sign of zeros. *)
From Coq Require Import Reals Lra Lia ZArith Bool.
From Flocq Require Import Core.
From Flocq Require Import IEEE754.BinarySingleNaN.
From Verif Require Import Base Num F64 ProofRound ProofRel.
Local Open Scope R_scope.

Definition flip (e : bool) (r : R) : R := if e then - r else r.

(** [y] is [x] ([e = false]) or minus [x] ([e = true]), up to the sign of zeros. *)
Definition mirror (e : bool) (x y : f64) : Prop :=
  match x, y with
  | B754_nan, B754_nan => True
  | B754_infinity s, B754_infinity t => t = xorb e s
  | B754_nan, _ | B754_infinity _, _ | _, B754_nan | _, B754_infinity _ => False
  | _, _ => B2R y = flip e (B2R x)
  end.

Lemma mirror_finite e (x y : f64) : is_finite x = true -> is_finite y = true -> mirror e x y <-> B2R y = flip e (B2R x).
Proof. destruct x, y; cbn; intros; try discriminate; tauto. Qed.

Lemma flip_flip e e' r : flip (xorb e e') r = flip e (flip e' r).
Proof. destruct e, e'; cbn; ring. Qed.
Lemma flip_mult e e' a b : flip e a * flip e' b = flip (xorb e e') (a * b).
Proof. destruct e, e'; cbn; ring. Qed.
Lemma flip_zero e r : flip e r = 0 <-> r = 0.
Proof. destruct e; cbn; lra. Qed.

(* ------------------------------------------------------------------ *)
(** ** Signs *)

Lemma sign_value (x : f64) : is_finite x = true -> B2R x <> 0 -> Bsign x = Rlt_bool (B2R x) 0.
Proof.
  destruct x as [s|s| |s m e H]; cbn [is_finite B2R Bsign]; try discriminate; [congruence|]. intros _ _. symmetry. destruct s.
  - apply Rlt_bool_true. now apply F2R_lt_0.
  - apply Rlt_bool_false. apply Rlt_le. now apply F2R_gt_0.
Qed.

Lemma sign_flip e r : r <> 0 -> Rlt_bool (flip e r) 0 = xorb e (Rlt_bool r 0).
Proof.
  intros H. destruct e; cbn [flip]; [|now rewrite xorb_false_l]. rewrite xorb_true_l. destruct (Rlt_bool_spec r 0) as [A|A]; cbn [negb].
  - apply Rlt_bool_false. lra.
  - apply Rlt_bool_true. lra.
Qed.

Lemma sign_mult a b : a * b <> 0 -> Rlt_bool (a * b) 0 = xorb (Rlt_bool a 0) (Rlt_bool b 0).
Proof.
  intros H. assert (a <> 0) by (intros ->; apply H; ring). assert (b <> 0) by (intros ->; apply H; ring).
  destruct (Rlt_bool_spec a 0), (Rlt_bool_spec b 0); cbn [xorb]; (apply Rlt_bool_true || apply Rlt_bool_false); nra.
Qed.

(** The sign bit of a finite number or infinity flips with it, except on zeros. *)
Lemma mirror_sign e (x y : f64) : mirror e x y -> is_nan x = false -> (is_finite x = true -> B2R x <> 0) -> Bsign y = xorb e (Bsign x).
Proof.
  intros M Hn Hz. destruct (is_finite x) eqn:Fx.
  - specialize (Hz eq_refl). assert (Fy : is_finite y = true) by (destruct x, y; cbn in M; try contradiction; try discriminate; reflexivity).
    rewrite (mirror_finite _ _ _ Fx Fy) in M. rewrite (sign_value x), (sign_value y); auto; [|rewrite M; now rewrite flip_zero].
    rewrite M. now apply sign_flip.
  - destruct x, y; cbn in *; try discriminate; try contradiction; auto.
Qed.

(* ------------------------------------------------------------------ *)
(** ** Rounded results *)

(** [z] is the rounding of the real [r]. *)
Definition rounded (r : R) (z : f64) : Prop :=
  if Rlt_bool (Rabs (rnd r)) (bpow radix2 1024) then is_finite z = true /\ B2R z = rnd r
  else z = B754_infinity (Rlt_bool r 0).

Lemma overflow_infinity (z : f64) s : B2SF z = binary_overflow 53 1024 mode_NE s -> z = B754_infinity s.
Proof. unfold binary_overflow. cbn. destruct z; cbn; congruence. Qed.

Lemma overflow_nonzero r : ~ Rabs (rnd r) < bpow radix2 1024 -> r <> 0.
Proof. intros H ->. apply H. rewrite rnd_0, Rabs_R0. apply bpow_gt_0. Qed.

Lemma rnd_flip e r : rnd (flip e r) = flip e (rnd r).
Proof. destruct e; cbn [flip]; [|reflexivity]. apply round_NE_opp. Qed.

Lemma rounded_mirror e r z z' : rounded r z -> rounded (flip e r) z' -> mirror e z z'.
Proof.
  unfold rounded. rewrite rnd_flip. replace (Rabs (flip e (rnd r))) with (Rabs (rnd r)) by (destruct e; cbn; [now rewrite Rabs_Ropp|reflexivity]).
  destruct (Rlt_bool_spec (Rabs (rnd r)) (bpow radix2 1024)) as [H|H].
  - intros [F1 E1] [F2 E2]. rewrite (mirror_finite _ _ _ F1 F2). congruence.
  - intros -> ->. cbn. apply sign_flip. apply overflow_nonzero. lra.
Qed.

Lemma rounded_plus (x y : f64) : is_finite x = true -> is_finite y = true -> rounded (B2R x + B2R y) (Bplus mode_NE x y).
Proof.
  intros Fx Fy. pose proof (Bplus_correct 53 1024 _ _ mode_NE x y Fx Fy) as C. cbn [round_mode] in C. unfold rounded.
  destruct (Rlt_bool_spec (Rabs (rnd (B2R x + B2R y))) (bpow radix2 1024)) as [H|H]; [tauto|].
  destruct C as [C S]. apply overflow_infinity in C. rewrite C. f_equal.
  assert (Hz : B2R x + B2R y <> 0) by (apply overflow_nonzero; lra).
  destruct (Req_dec (B2R x) 0) as [Ex|Ex].
  - rewrite Ex, Rplus_0_l in *. rewrite S. now apply sign_value.
  - rewrite (sign_value x Fx Ex) in *. destruct (Req_dec (B2R y) 0) as [Ey|Ey].
    + now rewrite Ey, Rplus_0_r.
    + rewrite (sign_value y Fy Ey) in S. destruct (Rlt_bool_spec (B2R x) 0), (Rlt_bool_spec (B2R y) 0); try discriminate; symmetry;
        (apply Rlt_bool_true || apply Rlt_bool_false); lra.
Qed.

Lemma rounded_minus (x y : f64) : is_finite x = true -> is_finite y = true -> rounded (B2R x - B2R y) (Bminus mode_NE x y).
Proof.
  intros Fx Fy. pose proof (Bminus_correct 53 1024 _ _ mode_NE x y Fx Fy) as C. cbn [round_mode] in C. unfold rounded.
  destruct (Rlt_bool_spec (Rabs (rnd (B2R x - B2R y))) (bpow radix2 1024)) as [H|H]; [tauto|].
  destruct C as [C S]. apply overflow_infinity in C. rewrite C. f_equal.
  assert (Hz : B2R x - B2R y <> 0) by (apply overflow_nonzero; lra).
  destruct (Req_dec (B2R x) 0) as [Ex|Ex].
  - rewrite Ex, Rminus_0_l in *. rewrite S. rewrite (sign_value y Fy) by lra. symmetry.
    change (- B2R y) with (flip true (B2R y)). rewrite sign_flip by lra. reflexivity.
  - rewrite (sign_value x Fx Ex) in *. destruct (Req_dec (B2R y) 0) as [Ey|Ey].
    + now rewrite Ey, Rminus_0_r.
    + rewrite (sign_value y Fy Ey) in S. destruct (Rlt_bool_spec (B2R x) 0), (Rlt_bool_spec (B2R y) 0); try discriminate; symmetry;
        (apply Rlt_bool_true || apply Rlt_bool_false); lra.
Qed.

Lemma rounded_mult (x y : f64) : is_finite x = true -> is_finite y = true -> rounded (B2R x * B2R y) (Bmult mode_NE x y).
Proof.
  intros Fx Fy. pose proof (Bmult_correct 53 1024 _ _ mode_NE x y) as C. cbn [round_mode] in C. unfold rounded.
  destruct (Rlt_bool_spec (Rabs (rnd (B2R x * B2R y))) (bpow radix2 1024)) as [H|H].
  - rewrite Fx, Fy in C. tauto.
  - apply overflow_infinity in C. rewrite C. f_equal.
    assert (Hz : B2R x * B2R y <> 0) by (apply overflow_nonzero; lra). rewrite sign_mult by auto.
    rewrite <- !sign_value; auto; intros E; apply Hz; rewrite E; ring.
Qed.

Lemma rounded_div (x y : f64) : is_finite x = true -> is_finite y = true -> B2R y <> 0 -> rounded (B2R x / B2R y) (Bdiv mode_NE x y).
Proof.
  intros Fx Fy Hy. pose proof (Bdiv_correct 53 1024 _ _ mode_NE x y Hy) as C. cbn [round_mode] in C. unfold rounded.
  destruct (Rlt_bool_spec (Rabs (rnd (B2R x / B2R y))) (bpow radix2 1024)) as [H|H].
  - rewrite Fx in C. tauto.
  - apply overflow_infinity in C. rewrite C. f_equal.
    assert (Hz : B2R x / B2R y <> 0) by (apply overflow_nonzero; lra). unfold Rdiv in *. rewrite sign_mult by auto.
    assert (Hx : B2R x <> 0) by (intros E; apply Hz; rewrite E; ring).
    rewrite (sign_value x), (sign_value y) by auto. f_equal.
    destruct (Rlt_bool_spec (B2R y) 0) as [A|A]; symmetry; [apply Rlt_bool_true, Rinv_lt_0_compat; auto|apply Rlt_bool_false, Rlt_le, Rinv_0_lt_compat; lra].
Qed.

(* ------------------------------------------------------------------ *)
(** ** Operations *)

Lemma mirror_plus e (x x' y y' : f64) : mirror e x x' -> mirror e y y' -> mirror e (Bplus mode_NE x y) (Bplus mode_NE x' y').
Proof.
  intros Mx My. destruct (is_finite x) eqn:Fx; [destruct (is_finite y) eqn:Fy|].
  - assert (Fx' : is_finite x' = true) by (destruct x, x'; cbn in Mx; try contradiction; try discriminate; reflexivity).
    assert (Fy' : is_finite y' = true) by (destruct y, y'; cbn in My; try contradiction; try discriminate; reflexivity).
    rewrite (mirror_finite _ _ _ Fx Fx') in Mx. rewrite (mirror_finite _ _ _ Fy Fy') in My.
    apply (rounded_mirror e (B2R x + B2R y)); [now apply rounded_plus|].
    replace (flip e (B2R x + B2R y)) with (B2R x' + B2R y') by (rewrite Mx, My; destruct e; cbn; ring). now apply rounded_plus.
  - destruct y as [|sy| |], y' as [|sy'| |]; try discriminate; cbn in My; try contradiction; subst; destruct x, x'; cbn in Mx; try contradiction; try discriminate; cbn; auto.
  - destruct x as [|sx| |], x' as [|sx'| |]; try discriminate; cbn in Mx; try contradiction; subst; destruct y as [|sy| |], y' as [|sy'| |]; cbn in My; try contradiction; subst; cbn; auto;
      destruct e, sx, sy; cbn; auto.
Qed.

Lemma mirror_minus e (x x' y y' : f64) : mirror e x x' -> mirror e y y' -> mirror e (Bminus mode_NE x y) (Bminus mode_NE x' y').
Proof.
  intros Mx My. destruct (is_finite x) eqn:Fx; [destruct (is_finite y) eqn:Fy|].
  - assert (Fx' : is_finite x' = true) by (destruct x, x'; cbn in Mx; try contradiction; try discriminate; reflexivity).
    assert (Fy' : is_finite y' = true) by (destruct y, y'; cbn in My; try contradiction; try discriminate; reflexivity).
    rewrite (mirror_finite _ _ _ Fx Fx') in Mx. rewrite (mirror_finite _ _ _ Fy Fy') in My.
    apply (rounded_mirror e (B2R x - B2R y)); [now apply rounded_minus|].
    replace (flip e (B2R x - B2R y)) with (B2R x' - B2R y') by (rewrite Mx, My; destruct e; cbn; ring). now apply rounded_minus.
  - destruct y as [|sy| |], y' as [|sy'| |]; try discriminate; cbn in My; try contradiction; subst; destruct x, x'; cbn in Mx; try contradiction; try discriminate; cbn; auto;
      destruct e, sy; cbn; auto.
  - destruct x as [|sx| |], x' as [|sx'| |]; try discriminate; cbn in Mx; try contradiction; subst; destruct y as [|sy| |], y' as [|sy'| |]; cbn in My; try contradiction; subst; cbn; auto;
      destruct e, sx, sy; cbn; auto.
Qed.

(** A finite number that is not zero, seen from its representation. *)
Lemma nonzero_finite s m e H : B2R (@B754_finite 53 1024 s m e H) <> 0.
Proof. cbn [B2R]. intros E. apply eq_0_F2R in E. destruct s; discriminate. Qed.

Lemma mirror_shape e (x y : f64) : mirror e x y ->
  (exists s t, x = B754_zero s /\ y = B754_zero t) \/
  (exists s, x = B754_infinity s /\ y = B754_infinity (xorb e s)) \/
  (x = B754_nan /\ y = B754_nan) \/
  (exists s m k H s' m' k' H', x = B754_finite s m k H /\ y = B754_finite s' m' k' H' /\ s' = xorb e s /\ B2R y = flip e (B2R x)).
Proof.
  intros M. destruct x as [s|s| |s m k H] eqn:Ex, y as [s'|s'| |s' m' k' H'] eqn:Ey; cbn in M; try contradiction; subst; eauto 6.
  - exfalso. apply (nonzero_finite s' m' k' H'). cbn [B2R] in M |- *. rewrite M. destruct e; cbn; ring.
  - exfalso. apply (nonzero_finite s m k H). cbn [B2R] in M |- *. apply (flip_zero e). auto.
  - right. right. right. exists s, m, k, H, s', m', k', H'. split; auto. split; auto. split; [|exact M].
    change s' with (Bsign (B754_finite s' m' k' H' : f64)). change s with (Bsign (B754_finite s m k H : f64)).
    apply mirror_sign; auto. intros _. apply nonzero_finite.
Qed.

Lemma mirror_mult e e' (x x' y y' : f64) : mirror e x x' -> mirror e' y y' -> mirror (xorb e e') (Bmult mode_NE x y) (Bmult mode_NE x' y').
Proof.
  intros Mx My. destruct (is_finite x) eqn:Fx; [destruct (is_finite y) eqn:Fy|].
  - assert (Fx' : is_finite x' = true) by (destruct x, x'; cbn in Mx; try contradiction; try discriminate; reflexivity).
    assert (Fy' : is_finite y' = true) by (destruct y, y'; cbn in My; try contradiction; try discriminate; reflexivity).
    rewrite (mirror_finite _ _ _ Fx Fx') in Mx. rewrite (mirror_finite _ _ _ Fy Fy') in My.
    apply (rounded_mirror _ (B2R x * B2R y)); [now apply rounded_mult|]. rewrite <- flip_mult, <- Mx, <- My. now apply rounded_mult.
  - apply mirror_shape in Mx as [(s & t & -> & ->)|[(s & -> & ->)|[(-> & ->)|(s & m & k & H & s' & m' & k' & H' & -> & -> & -> & _)]]]; try discriminate;
    apply mirror_shape in My as [(u & v & -> & ->)|[(u & -> & ->)|[(-> & ->)|(u & m1 & k1 & H1 & u' & m1' & k1' & H1' & -> & -> & -> & _)]]]; try discriminate; cbn; auto.
    destruct e, e', s, u; reflexivity.
  - apply mirror_shape in Mx as [(s & t & -> & ->)|[(s & -> & ->)|[(-> & ->)|(s & m & k & H & s' & m' & k' & H' & -> & -> & -> & _)]]]; try discriminate;
    apply mirror_shape in My as [(u & v & -> & ->)|[(u & -> & ->)|[(-> & ->)|(u & m1 & k1 & H1 & u' & m1' & k1' & H1' & -> & -> & -> & _)]]]; cbn; auto;
    destruct e, e', s, u; reflexivity.
Qed.

Lemma mirror_div e (x x' c : f64) : mirror e x x' -> mirror e (Bdiv mode_NE x c) (Bdiv mode_NE x' c).
Proof.
  intros Mx. destruct (is_finite x) eqn:Fx.
  - destruct c as [sc|sc| |sc mc ec Hc] eqn:Ec.
    1-3: apply mirror_shape in Mx as [(s & t & -> & ->)|[(s & -> & ->)|[(-> & ->)|(s & m & k & H & s' & m' & k' & H' & -> & -> & -> & _)]]]; try discriminate; cbn; auto;
      try (destruct e, s, sc; reflexivity); destruct e; cbn; try ring; auto.
    assert (Fx' : is_finite x' = true) by (destruct x, x'; cbn in Mx; try contradiction; try discriminate; reflexivity).
    rewrite (mirror_finite _ _ _ Fx Fx') in Mx. rewrite <- Ec.
    assert (Hz : B2R c <> 0) by (rewrite Ec; apply nonzero_finite). assert (Fc : is_finite c = true) by now rewrite Ec.
    apply (rounded_mirror _ (B2R x / B2R c)); [now apply rounded_div|].
    replace (flip e (B2R x / B2R c)) with (B2R x' / B2R c) by (rewrite Mx; destruct e; cbn [flip]; field; auto). now apply rounded_div.
  - apply mirror_shape in Mx as [(s & t & -> & ->)|[(s & -> & ->)|[(-> & ->)|(s & m & k & H & s' & m' & k' & H' & -> & -> & -> & _)]]]; try discriminate;
      destruct c as [sc|sc| |sc mc ec Hc]; cbn; auto; destruct e, s, sc; reflexivity.
Qed.

Lemma mirror_refl (x : f64) : mirror false x x.
Proof. destruct x as [|[|]| |]; cbn; auto. Qed.

Lemma mirror_less (x x' y y' : f64) : mirror false x x' -> mirror false y y' -> Bltb x y = Bltb x' y'.
Proof.
  intros Mx My. destruct (is_finite x) eqn:Fx; [destruct (is_finite y) eqn:Fy|].
  - assert (Fx' : is_finite x' = true) by (destruct x, x'; cbn in Mx; try contradiction; try discriminate; reflexivity).
    assert (Fy' : is_finite y' = true) by (destruct y, y'; cbn in My; try contradiction; try discriminate; reflexivity).
    rewrite (mirror_finite _ _ _ Fx Fx') in Mx. rewrite (mirror_finite _ _ _ Fy Fy') in My. cbn [flip] in *.
    rewrite !Bltb_correct by auto. congruence.
  - apply mirror_shape in Mx as [(s & t & -> & ->)|[(s & -> & ->)|[(-> & ->)|(s & m & k & H & s' & m' & k' & H' & -> & -> & -> & _)]]]; try discriminate;
    apply mirror_shape in My as [(u & v & -> & ->)|[(u & -> & ->)|[(-> & ->)|(u & m1 & k1 & H1 & u' & m1' & k1' & H1' & -> & -> & -> & _)]]]; try discriminate; cbn; auto; try (destruct s; reflexivity); try (destruct u; reflexivity); try (destruct s, u; reflexivity).
  - apply mirror_shape in Mx as [(s & t & -> & ->)|[(s & -> & ->)|[(-> & ->)|(s & m & k & H & s' & m' & k' & H' & -> & -> & -> & _)]]]; try discriminate;
    apply mirror_shape in My as [(u & v & -> & ->)|[(u & -> & ->)|[(-> & ->)|(u & m1 & k1 & H1 & u' & m1' & k1' & H1' & -> & -> & -> & _)]]]; try discriminate; cbn; auto; try (destruct s; reflexivity); try (destruct u; reflexivity); try (destruct s, u; reflexivity).
Qed.

Lemma mirror_zero (x x' : f64) : mirror false x x' -> Beqb x (B754_zero false) = Beqb x' (B754_zero false).
Proof.
  intros Mx. apply mirror_shape in Mx as [(s & t & -> & ->)|[(s & -> & ->)|[(-> & ->)|(s & m & k & H & s' & m' & k' & H' & -> & -> & -> & _)]]]; cbn; auto; destruct s; reflexivity.
Qed.

(** Negated labels: everything linear is negated, everything quadratic stays. *)
Theorem negation_preserved (P : platform) (e : bool) : @preserved (f64_ops P) (mirror e) (mirror false).
Proof.
  constructor.
  - cbn. destruct e; cbn; ring.
  - apply mirror_plus.
  - apply mirror_minus.
  - intros x x' c H. now apply mirror_div.
  - intros x x' c H. pose proof (mirror_mult false e c c x x' (mirror_refl c) H) as M. now rewrite xorb_false_l in M.
  - intros x x' H. pose proof (mirror_mult e e x x' x x' H H) as M. now rewrite xorb_nilpotent in M.
  - apply mirror_refl.
  - apply mirror_refl.
  - apply mirror_refl.
  - apply mirror_plus.
  - apply mirror_minus.
  - intros x x' c H. now apply mirror_div.
  - intros x x' c H. exact (mirror_mult false false c c x x' (mirror_refl c) H).
  - apply mirror_less.
  - apply mirror_zero.
Qed.
