(** Specification vocabulary: by how much a classification iteration lowers the log-loss (exact arithmetic, C102). *)
From Coq Require Import Reals List.
From Verif Require Import Base Num ModelCommon Spec XR SpecExact SpecClass SpecGradient.
Local Open Scope R_scope.

(** The variance of the change from scores [s] to scores [s'], each class weighted with its probability under [s]. *)
Definition step_variance (s s' : list R) : R :=
  let change j := nth j s' 0 - nth j s 0 in
  let mean := Rsum (map (fun j => probability s j * change j) (seq 0 (length s))) in
  Rsum (map (fun j => probability s j * (change j - mean) ^ 2) (seq 0 (length s))).

(** Summed over the rows. *)
Definition steps_variance (ss ss' : list (list R)) : R := Rsum (map (fun p => step_variance (fst p) (snd p)) (combine ss ss')).

(** No score changes by more than [x]. *)
Definition moves_at_most (x : R) (ss ss' : list (list R)) : Prop := Forall2 (Forall2 (fun a b => Rabs (b - a) <= x)) ss ss'.
