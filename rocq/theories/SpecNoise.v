(** Specification vocabulary: two tables that differ by a little noise in the labels (C92). *)
From Coq Require Import Reals List.
From Flocq Require Import IEEE754.BinarySingleNaN.
From Verif Require Import Base Num ModelCommon F64.
Local Open Scope R_scope.

(** The same feature values, and no label entry moved by more than [e]. *)
Definition noisy_copy {P : platform} (e : R) (d d' : @dataset (f64_ops P)) : Prop :=
  feature_rows d' = feature_rows d /\ feature_columns d' = feature_columns d /\
  Forall2 (Forall2 (fun y y' : f64 => Rabs (B2R y' - B2R y) <= e)) (labels d) (labels d').
