(** Specification vocabulary for rounded fractions in binary64. *)
From Coq Require Import Reals.
From Flocq Require Import Core.
From Flocq Require Import IEEE754.BinarySingleNaN.
From Verif Require Import Base F64.

(** Round to nearest, ties to even, in the binary64 format. *)
Definition nearest_f64 (x : R) : R := round radix2 (FLT_exp (-1074) 53) ZnearestE x.

(** [r] is the correctly rounded quotient k/n, lies in [0,1], and is 1 or 0 only if k/n is. *)
Definition is_fraction (k n : nat) (r : f64) : Prop :=
  is_finite r = true /\ B2R r = nearest_f64 (INR k / INR n) /\
  (0 <= B2R r <= 1)%R /\ (B2R r = 1%R <-> k = n) /\ (B2R r = 0%R <-> k = 0).
