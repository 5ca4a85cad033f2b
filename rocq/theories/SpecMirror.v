(** Specification: numbers, labels and data sets that differ by their sign. *)
From Flocq Require Import IEEE754.BinarySingleNaN.
From Verif Require Import Base Num F64 ModelCommon.

(** [y] is minus [x]; zeros of either sign are minus each other, and NaN is minus NaN. *)
Definition opposite (x y : f64) : Prop :=
  (is_nan x = true /\ is_nan y = true) \/ Beqb y (Bopp x) = true.

(** [x] and [y] are the same number; zeros of either sign are the same, and NaN is the same as NaN. *)
Definition same_number (x y : f64) : Prop :=
  (is_nan x = true /\ is_nan y = true) \/ Beqb y x = true.

(** The same rows with other labels. *)
Definition with_other_labels {P : platform} (d : @dataset (f64_ops P)) (ls : list (list f64)) : @dataset (f64_ops P) :=
  @mkDS (f64_ops P) (feature_rows d) ls (feature_columns d).

(** The same rows with every label negated. *)
Definition negated {P : platform} (d : @dataset (f64_ops P)) : @dataset (f64_ops P) :=
  with_other_labels d (map (map (fun x : f64 => Bopp x)) (labels d)).

(** Both calls panic, or both answer and the answers are related entry by entry. *)
Definition answers_related (R : f64 -> f64 -> Prop) (r r' : res (list f64)) : Prop :=
  (r = Panic /\ r' = Panic) \/ exists p p', r = Ok p /\ r' = Ok p' /\ Forall2 R p p'.
