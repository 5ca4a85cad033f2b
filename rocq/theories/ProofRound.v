(** Rounding facts for binary64 operations. *)
From Coq Require Import Reals Lra Lia ZArith.
From Flocq Require Import Core.
From Flocq Require Import IEEE754.BinarySingleNaN.
From Verif Require Import Base Num F64 ProofScoreF64.
Local Open Scope R_scope.

Notation fexp64 := (SpecFloat.fexp 53 1024).
Notation rnd := (round radix2 fexp64 ZnearestE).

#[export] Instance valid_fexp64 : Valid_exp fexp64.
Proof. apply fexp_correct. reflexivity. Qed.

Lemma rnd_le x y : x <= y -> rnd x <= rnd y.
Proof. apply round_le; typeclasses eauto. Qed.
Lemma rnd_0 : rnd 0 = 0.
Proof. apply round_0. typeclasses eauto. Qed.
Lemma rnd_format x : generic_format radix2 fexp64 x -> rnd x = x.
Proof. apply round_generic. typeclasses eauto. Qed.
Lemma rnd_B2R (x : f64) : rnd (B2R x) = B2R x.
Proof. apply rnd_format. apply generic_format_B2R. Qed.
Lemma rnd_1 : rnd 1 = 1.
Proof. apply rnd_format, format_one. Qed.
Lemma rnd_m1 : rnd (-1) = -1.
Proof. apply rnd_format. apply generic_format_opp. exact format_one. Qed.

Lemma one_lt_emax : 1 < bpow radix2 1024.
Proof. change 1 with (bpow radix2 0). apply bpow_lt. lia. Qed.

Lemma plus_value (x y : f64) : is_finite x = true -> is_finite y = true ->
  Rabs (rnd (B2R x + B2R y)) < bpow radix2 1024 ->
  is_finite (Bplus mode_NE x y) = true /\ B2R (Bplus mode_NE x y) = rnd (B2R x + B2R y).
Proof.
  intros Fx Fy H. pose proof (Bplus_correct 53 1024 _ _ mode_NE x y Fx Fy) as C. cbn [round_mode] in C.
  rewrite Rlt_bool_true in C by exact H. tauto.
Qed.

Lemma minus_value (x y : f64) : is_finite x = true -> is_finite y = true ->
  Rabs (rnd (B2R x - B2R y)) < bpow radix2 1024 ->
  is_finite (Bminus mode_NE x y) = true /\ B2R (Bminus mode_NE x y) = rnd (B2R x - B2R y).
Proof.
  intros Fx Fy H. pose proof (Bminus_correct 53 1024 _ _ mode_NE x y Fx Fy) as C. cbn [round_mode] in C.
  rewrite Rlt_bool_true in C by exact H. tauto.
Qed.

Lemma mult_value (x y : f64) : is_finite x = true -> is_finite y = true ->
  Rabs (rnd (B2R x * B2R y)) < bpow radix2 1024 ->
  is_finite (Bmult mode_NE x y) = true /\ B2R (Bmult mode_NE x y) = rnd (B2R x * B2R y).
Proof.
  intros Fx Fy H. pose proof (Bmult_correct 53 1024 _ _ mode_NE x y) as C. cbn [round_mode] in C.
  rewrite Rlt_bool_true in C by exact H. destruct C as (A & B & _). rewrite Fx, Fy in B. auto.
Qed.

Lemma div_value (x y : f64) : is_finite x = true -> B2R y <> 0 ->
  Rabs (rnd (B2R x / B2R y)) < bpow radix2 1024 ->
  is_finite (Bdiv mode_NE x y) = true /\ B2R (Bdiv mode_NE x y) = rnd (B2R x / B2R y).
Proof.
  intros Fx Hy H. pose proof (Bdiv_correct 53 1024 _ _ mode_NE x y Hy) as C. cbn [round_mode] in C.
  rewrite Rlt_bool_true in C by exact H. destruct C as (A & B & _). rewrite Fx in B. auto.
Qed.

(** A finite sum had finite terms and did not overflow. *)
Lemma plus_finite (x y : f64) : is_finite (Bplus mode_NE x y) = true ->
  is_finite x = true /\ is_finite y = true /\ B2R (Bplus mode_NE x y) = rnd (B2R x + B2R y).
Proof.
  intros H.
  assert (Fx : is_finite x = true) by (destruct x as [?|[|]| |]; auto; destruct y as [?|[|]| |]; discriminate).
  assert (Fy : is_finite y = true) by (destruct y as [?|[|]| |]; auto; destruct x as [?|[|]| |]; discriminate).
  split; auto. split; auto.
  pose proof (Bplus_correct 53 1024 _ _ mode_NE x y Fx Fy) as C. cbn [round_mode] in C.
  destruct (Rlt_bool _ _); [tauto|]. destruct C as [C _].
  exfalso.
  destruct (Bplus mode_NE x y); try discriminate; cbn in C; unfold binary_overflow in C; cbn in C; discriminate.
Qed.

(** Summation of numbers that are not negative. *)
Definition nonneg (x : f64) : Prop := is_finite x = true /\ 0 <= B2R x.

Lemma fold_plus_finite (l : list f64) : forall a, is_finite (fold_left (Bplus mode_NE) l a) = true ->
  is_finite a = true /\ Forall (fun x => is_finite x = true) l.
Proof.
  induction l as [|x l IH]; intros a H; cbn in H; [auto|]. destruct (IH _ H) as [H1 H2].
  apply plus_finite in H1 as (A & B & _). auto.
Qed.

Lemma fold_plus_above (l : list f64) : forall a, is_finite (fold_left (Bplus mode_NE) l a) = true ->
  0 <= B2R a -> Forall (fun x => 0 <= B2R x) l ->
  B2R a <= B2R (fold_left (Bplus mode_NE) l a) /\ Forall (fun x => B2R x <= B2R (fold_left (Bplus mode_NE) l a)) l.
Proof.
  induction l as [|x l IH]; intros a H Ha Hl; cbn in *; [split; [lra|constructor]|].
  inversion Hl as [|? ? Hx Hl']; subst.
  pose proof (proj1 (fold_plus_finite l _ H)) as Hf. apply plus_finite in Hf as (_ & _ & E).
  assert (P1 : B2R a <= B2R (Bplus mode_NE a x)) by (rewrite E, <- (rnd_B2R a) at 1; apply rnd_le; lra).
  assert (P2 : B2R x <= B2R (Bplus mode_NE a x)) by (rewrite E, <- (rnd_B2R x) at 1; apply rnd_le; lra).
  destruct (IH (Bplus mode_NE a x) H ltac:(lra) Hl') as [A B]. split; [lra|]. constructor; [lra|exact B].
Qed.

(** Sums that meet an infinity stay away from the finite numbers. *)
Lemma plus_not_finite (x y : f64) : is_finite x = false \/ is_finite y = false -> is_finite (Bplus mode_NE x y) = false.
Proof.
  intros H. destruct (is_finite (Bplus mode_NE x y)) eqn:E; auto. apply plus_finite in E as (A & B & _). destruct H; congruence.
Qed.

Lemma fold_plus_not_finite (l : list f64) a : Exists (fun x => is_finite x = false) l -> is_finite (fold_left (Bplus mode_NE) l a) = false.
Proof.
  intros H. destruct (is_finite (fold_left (Bplus mode_NE) l a)) eqn:E; auto. apply fold_plus_finite in E as [_ E].
  apply Exists_exists in H as (x & Hx & Hf). rewrite Forall_forall in E. rewrite (E x Hx) in Hf. discriminate.
Qed.
