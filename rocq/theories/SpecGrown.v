(** Specification vocabulary: trees that fit their training data, and points between two vectors (exact arithmetic). *)
From Coq Require Import Reals List.
From Verif Require Import Base Num ModelCommon ModelTree Spec SpecTree SpecScore SpecFit XR.
Local Open Scope R_scope.

(** The tree answers every training row with its label. *)
Definition fits_training (d : @dataset xr_ops) (t : @tree_node xr_ops (@regression_leaf xr_ops)) : Prop :=
  forall row l, In (row, l) (samples d) -> tree_prediction row t = Ok l.

(** The point reached from [g] by going the fraction [s] of the way to [t]. *)
Definition towards (s : R) (g t : list R) : list R := map (fun p => fst p + s * (snd p - fst p)) (combine g t).
