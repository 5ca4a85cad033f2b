(** Specification vocabulary for the training error of a regression ensemble in binary64. *)
From Coq Require Import Reals List.
From Flocq Require Import IEEE754.BinarySingleNaN.
From Verif Require Import Base F64 SpecExact.
Local Open Scope R_scope.

(** The root of the mean square. *)
Definition rms (xs : list R) : R := sqrt (mean (map (fun x => x * x) xs)).

(** What is left of target [j]: labels minus predictions, as real numbers. *)
Definition errors (j : nat) (ls ps : list (list f64)) : list R :=
  map (fun q => B2R (nth j (fst q) (B754_zero false)) - B2R (nth j (snd q) (B754_zero false))) (combine ls ps).

(** Every entry is a finite float of absolute value at most [B]. *)
Definition within (B : R) (vs : list (list f64)) : Prop :=
  Forall (Forall (fun x : f64 => is_finite x = true /\ Rabs (B2R x) <= B)) vs.
