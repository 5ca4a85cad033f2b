(** Specification: numbers that differ by a power of two. *)
From Coq Require Import Reals ZArith.
From Flocq Require Import Core IEEE754.BinarySingleNaN.
From Verif Require Import Base Num F64.
Local Open Scope R_scope.

(** Both numbers are finite and [y] is exactly 2^k times [x]. *)
Definition scaled_by (k : Z) (x y : f64) : Prop :=
  is_finite x = true /\ is_finite y = true /\ B2R y = bpow radix2 k * B2R x.

(** A finite number that is 0 or neither tiny nor huge: its magnitude lies between 2^-m and 2^m. *)
Definition moderate (m : Z) (x : f64) : Prop :=
  is_finite x = true /\ (B2R x = 0 \/ bpow radix2 (- m) <= Rabs (B2R x) <= bpow radix2 m).
