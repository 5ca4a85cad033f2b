(** Exact-arithmetic instance of [NumOps]: real numbers with +inf, -inf and NaN, no rounding. *)
From Coq Require Import Reals Lra.
From Verif Require Import Base Num.
Local Open Scope R_scope.

Inductive xr := Fin (r : R) | PInf | NInf | XNaN.

Definition xneg (x : xr) : xr :=
  match x with Fin r => Fin (- r) | PInf => NInf | NInf => PInf | XNaN => XNaN end.

Definition xabs (x : xr) : xr :=
  match x with Fin r => Fin (Rabs r) | PInf | NInf => PInf | XNaN => XNaN end.

Definition xadd (x y : xr) : xr :=
  match x, y with
  | Fin a, Fin b => Fin (a + b)
  | XNaN, _ | _, XNaN => XNaN
  | PInf, NInf | NInf, PInf => XNaN
  | PInf, _ | _, PInf => PInf
  | NInf, _ | _, NInf => NInf
  end.

Definition xsub (x y : xr) : xr := xadd x (xneg y).

(** Sign of a non-NaN value as seen by multiplication and division: zero counts as +0. *)
Definition xnonneg (x : xr) : bool :=
  match x with Fin r => if Rle_dec 0 r then true else false | PInf => true | _ => false end.

Definition xis0 (x : xr) : bool :=
  match x with Fin r => if Req_EM_T r 0 then true else false | _ => false end.

Definition signed_inf (positive : bool) : xr := if positive then PInf else NInf.

Definition xmul (x y : xr) : xr :=
  match x, y with
  | Fin a, Fin b => Fin (a * b)
  | XNaN, _ | _, XNaN => XNaN
  | _, _ => if xis0 x || xis0 y then XNaN else signed_inf (Bool.eqb (xnonneg x) (xnonneg y))
  end.

Definition xdiv (x y : xr) : xr :=
  match x, y with
  | XNaN, _ | _, XNaN => XNaN
  | Fin a, Fin b =>
      if xis0 y then (if xis0 x then XNaN else signed_inf (xnonneg x)) else Fin (a / b)
  | Fin _, _ => Fin 0
  | _, Fin _ => signed_inf (Bool.eqb (xnonneg x) (xnonneg y))
  | _, _ => XNaN
  end.

Definition xexp (x : xr) : xr :=
  match x with Fin r => Fin (exp r) | PInf => PInf | NInf => Fin 0 | XNaN => XNaN end.

Definition xleb (x y : xr) : bool :=
  match x, y with
  | XNaN, _ | _, XNaN => false
  | NInf, _ | _, PInf => true
  | Fin a, Fin b => if Rle_dec a b then true else false
  | _, _ => false
  end.

Definition xltb (x y : xr) : bool := xleb x y && negb (xleb y x).
Definition xeqb (x y : xr) : bool := xleb x y && xleb y x.

Definition xto_usize (x : xr) : N :=
  match x with
  | Fin r => N.min (Z.to_N (Int_part r)) (2 ^ 64 - 1)
  | PInf => 2 ^ 64 - 1
  | _ => 0
  end%N.

#[export] Instance xr_ops : NumOps := {|
  F := xr;
  f0 := Fin 0;
  f1 := Fin 1;
  finf := PInf;
  fninf := NInf;
  fsum0 := Fin 0;
  fadd := xadd;
  fsub := xsub;
  fmul := xmul;
  fdiv := xdiv;
  fneg := xneg;
  fabs := xabs;
  fexp := xexp;
  fsqr := fun x => xmul x x;
  fltb := xltb;
  fleb := xleb;
  feqb := xeqb;
  f_of_nat := fun n => Fin (INR n);
  f_to_usize := xto_usize |}.

Lemma Int_part_INR (n : nat) : Int_part (INR n) = Z.of_nat n.
Proof.
  destruct (base_Int_part (INR n)) as [H1 H2]. rewrite INR_IZR_INZ in *.
  apply le_IZR in H1.
  assert (H3 : IZR (Z.of_nat n) < IZR (Int_part (IZR (Z.of_nat n)) + 1)) by (rewrite plus_IZR; lra).
  apply lt_IZR in H3. lia.
Qed.

Lemma xleb_Fin (a b : R) : xleb (Fin a) (Fin b) = true <-> a <= b.
Proof. simpl. destruct (Rle_dec a b); split; auto; discriminate. Qed.

Lemma xltb_Fin (a b : R) : xltb (Fin a) (Fin b) = true <-> a < b.
Proof.
  unfold xltb; simpl. destruct (Rle_dec a b), (Rle_dec b a); simpl; split; intros; try discriminate; try lra; reflexivity.
Qed.

Lemma xeqb_Fin (a b : R) : xeqb (Fin a) (Fin b) = true <-> a = b.
Proof.
  unfold xeqb; simpl. destruct (Rle_dec a b), (Rle_dec b a); simpl; split; intros; try discriminate; try lra; reflexivity.
Qed.

Lemma xdiv_Fin (a b : R) : b <> 0 -> xdiv (Fin a) (Fin b) = Fin (a / b).
Proof. intros H; simpl. destruct (Req_EM_T b 0); [contradiction|reflexivity]. Qed.

Theorem xr_laws : NumLaws xr_ops.
Proof.
  constructor; cbn -[Z.pow].
  - intros [a| | |] [b| | |] [c| | |]; simpl; try discriminate; try reflexivity.
    destruct (Rle_dec a b), (Rle_dec b c), (Rle_dec a c); try discriminate; try reflexivity; lra.
  - intros [a| | |] [b| | |]; simpl; try discriminate; auto.
    destruct (Rle_dec a b), (Rle_dec b a); auto; lra.
  - intros [a| | |] [b| | |]; simpl; try discriminate; auto;
      destruct (Rle_dec a a); auto; lra.
  - intros [a| | |] [b| | |]; simpl; try discriminate; auto;
      destruct (Rle_dec b b); auto; lra.
  - reflexivity.
  - reflexivity.
  - destruct (Rle_dec 0 0); auto; lra.
  - intros [a| | |]; reflexivity.
  - intros [a| | |]; simpl; try reflexivity. destruct (Rle_dec a a); auto; lra.
  - reflexivity.
  - intros n _. f_equal. destruct n; simpl; lra.
  - intros n Hn. rewrite Int_part_INR. lia.
Qed.
