(** Specification vocabulary: a feature that tells all rows apart (exact arithmetic, C96). *)
From Coq Require Import Reals List.
From Verif Require Import Base Num ModelCommon XR.
Local Open Scope R_scope.

(** No two rows have the same value in column [j]. *)
Definition tells_apart (j : nat) (d : @dataset xr_ops) : Prop :=
  forall i i' r r' v, nth_error (feature_rows d) i = Some r -> nth_error (feature_rows d) i' = Some r' ->
    nth_error r j = Some v -> nth_error r' j = Some v -> i = i'.

(** The table with the differences between the labels [ls] and the predictions [ps] as labels. *)
Definition residual_table (d : @dataset xr_ops) (ls ps : list (list R)) : @dataset xr_ops :=
  mkDS (feature_rows d)
    (map (fun p => map (fun q => Fin (fst q - snd q)) (combine (fst p) (snd p))) (combine ls ps))
    (feature_columns d).
