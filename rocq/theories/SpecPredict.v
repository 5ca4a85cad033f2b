(** Specification vocabulary for the rounding errors of ensemble predictions. *)
From Coq Require Import Reals List.
From Flocq Require Import Core.
From Flocq Require Import IEEE754.BinarySingleNaN.
From Verif Require Import Base F64 SpecExact.
Local Open Scope R_scope.

(** The starting value plus the rate times each contribution, as a real number. *)
Definition weighted_sum (start rate : R) (contributions : list R) : R :=
  start + Rsum (map (fun x => rate * x) contributions).

(** The same with absolute values: the size of the numbers that are added up. *)
Definition weighted_size (start rate : R) (contributions : list R) : R :=
  Rabs start + Rsum (map (fun x => Rabs (rate * x)) contributions).

(** Labels that are finite and at most 2^900 in absolute value. *)
Definition tame (ls : list (list f64)) : Prop :=
  Forall (Forall (fun y : f64 => is_finite y = true /\ Rabs (B2R y) <= bpow radix2 900)) ls.

(** Vectors of finite numbers of at most 2^400 in absolute value. *)
Definition moderate (vs : list (list f64)) : Prop :=
  Forall (Forall (fun x : f64 => is_finite x = true /\ Rabs (B2R x) <= bpow radix2 400)) vs.

(** The platform's [powf(x, 2.)] is within one unit in the last place of the square, where that is far from overflow. *)
Definition accurate_square (P : platform) : Prop :=
  forall x : f64, is_finite x = true -> Rabs (B2R x) <= bpow radix2 500 ->
    is_finite (p_sqr P x) = true /\
    Rabs (B2R (p_sqr P x) - B2R x * B2R x) <= bpow radix2 (-52) * (B2R x * B2R x) + bpow radix2 (-1074).

(** The platform's [exp] is within one unit in the last place of the exponential, for arguments of at most 300 in absolute value. *)
Definition accurate_exp (P : platform) : Prop :=
  forall x : f64, is_finite x = true -> Rabs (B2R x) <= 300 ->
    is_finite (p_exp P x) = true /\ Rabs (B2R (p_exp P x) - exp (B2R x)) <= bpow radix2 (-52) * exp (B2R x).
