(** Specification vocabulary for binary64 data sets with arbitrary finite labels of bounded size. *)
From Coq Require Import Reals List ZArith.
From Flocq Require Import IEEE754.BinarySingleNaN.
From Verif Require Import Base Num ModelCommon Spec F64.
Local Open Scope R_scope.

(** Every label entry is a finite float of absolute value at most [B]. *)
Definition bounded_labels {P : platform} (B : R) (d : @dataset (f64_ops P)) : Prop :=
  forall l x, In l (labels d) -> In x l -> is_finite x = true /\ Rabs (B2R x) <= B.

(** Far from overflow and underflow, and at most [2^20] rows. *)
Definition ordinary_table {P : platform} (B : R) (d : @dataset (f64_ops P)) : Prop :=
  / 2 ^ 400 <= B <= 2 ^ 400 /\ (Z.of_nat (length (labels d)) <= 2 ^ 20)%Z.

(** How far the computed gain can be from the exact one with [k] targets, [n] rows and labels of absolute
    value at most [B]. *)
Definition real_gain_error (k n : nat) (B : R) : R := 320 * (INR k + 1) * (INR k + INR n) * (B * B) / 2 ^ 53.
