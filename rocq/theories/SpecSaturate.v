(** Specification vocabulary for classification leaves in binary64. *)
From Coq Require Import Reals List ZArith.
From Flocq Require Import Core.
From Flocq Require Import IEEE754.BinarySingleNaN.
From Verif Require Import Base Num ModelCommon Spec SpecScore F64.
Local Open Scope R_scope.

(** Finite, at most 1 in absolute value, and zero or not absurdly small. *)
Definition residual_entry (x : f64) : Prop :=
  is_finite x = true /\ Rabs (B2R x) <= 1 /\ (B2R x = 0 \/ bpow radix2 (-900) <= Rabs (B2R x)).

(** Every label entry is such a number. *)
Definition residual_table (ls : list (list f64)) : Prop := Forall (Forall residual_entry) ls.

(** The table that the next tree is fitted to: each label minus the class probabilities of the row's scores. *)
Definition residual_data {O : NumOps} (d : dataset) (scores : list (list F)) : dataset :=
  mkDS (feature_rows d) (differences (labels d) (map softmax scores)) (feature_columns d).
