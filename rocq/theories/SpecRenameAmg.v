(** Specification vocabulary: leaves of AMG trees in which one class is ahead (exact arithmetic, C66). *)
From Coq Require Import Reals List.
From Verif Require Import Base Num ModelCommon ModelTree ModelBoost Spec SpecTree SpecScore SpecFit SpecClass XR.
Local Open Scope R_scope.

(** No two of the [k] entries share the largest value, unless that value is 0. *)
Definition undisputed (k : nat) (o : list R) : Prop :=
  forall i j, (i < k)%nat -> (j < k)%nat ->
    (forall l, (l < k)%nat -> nth l o 0 <= nth i o 0) -> (forall l, (l < k)%nat -> nth l o 0 <= nth j o 0) ->
    i = j \/ nth i o 0 = 0.

(** In each tree of the model, in the leaf of any row: the leaf outputs of the classes, computed from the residuals [gs] of the
    training rows in the leaf at that iteration, are undisputed. *)
Definition undisputed_leaves (nc nt : nat) (d : @dataset xr_ops) (m : @amg_boost_model xr_ops) : Prop :=
  forall k t scores gs row,
    nth_error (m_trees m) k = Some t -> mapM (amg_boost_raw (first_trees k m)) (feature_rows d) = Ok scores -> (nc <= length row)%nat ->
    map snd (samples_like row t (mkDS (feature_rows d) (differences (labels d) (map softmax scores)) (feature_columns d))) = map (map Fin) gs ->
    undisputed nt (class_output nt gs).
