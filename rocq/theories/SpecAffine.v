(** Specification vocabulary: rescaled and shifted labels (exact arithmetic). *)
From Coq Require Import Reals List.
From Verif Require Import Base Num ModelCommon XR.
Local Open Scope R_scope.

(** Target [j] becomes [s * x + v_j]. *)
Definition affine (s : R) (v l : list R) : list R := map (fun p => s * fst p + snd p) (combine l v).

(** Target [j] becomes [x + v_j]. *)
Definition shift (v l : list R) : list R := map (fun p => fst p + snd p) (combine l v).

(** The data set with other label vectors. *)
Definition relabel (d : @dataset xr_ops) (ls : list (list R)) : @dataset xr_ops :=
  mkDS (feature_rows d) (map (map Fin) ls) (feature_columns d).
