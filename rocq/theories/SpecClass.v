(** Specification vocabulary for classification ensembles in exact arithmetic. *)
From Coq Require Import Reals List.
From Verif Require Import Base Num ModelCommon Spec XR SpecExact.
Local Open Scope R_scope.

(** Every label vector is one-hot among [k] classes. *)
Definition one_hot_labels (k : nat) (d : @dataset xr_ops) : Prop :=
  Forall (fun y => exists c, one_hot k c y) (labels d).

(** The probability of class [j] for scores [s]. *)
Definition probability (s : list R) (j : nat) : R := exp (nth j s 0) / Rsum (map exp s).

(** The numbers [|x| (1 - |x|)] summed over a list. *)
Definition curvature (l : list R) : R := Rsum (map (fun x => Rabs x * (1 - Rabs x)) l).

(** The output of a leaf holding the residual vectors [group], for [k] classes. *)
Definition class_output (k : nat) (group : list (list R)) : list R :=
  map (fun j => (INR k - 1) / INR k * (Rsum (target j group) / curvature (target j group))) (seq 0 k).
