(** Specification vocabulary for nearly pure leaves in binary64. *)
From Coq Require Import Reals List NArith.
From Flocq Require Import IEEE754.BinarySingleNaN.
From Verif Require Import Base Num ModelCommon ModelTree Spec SpecTree SpecScore F64 SpecExact SpecFit SpecNear.
Local Open Scope R_scope.

(** In every leaf above the depth limit the labels are close together: with [n] training rows in the leaf, every
    entry of every label is within [2 n^2] times the root of the gain error of the exact average in the leaf.
    The rows in the leaf of [row] are those that answer the questions met by [row] as [row] does. *)
Definition close_leaves {P : platform} {L} (B : R) (nt : nat) (limit : N) (d : @dataset (f64_ops P)) (t : tree_node L) : Prop :=
  forall (row : list (@F (f64_ops P))) (l : list f64) (j : nat), (N.of_nat (length (path row t)) < limit)%N ->
    let group := map snd (samples_like row t d) in
    let n := length group in
    In l group -> (j < nt)%nat ->
    Rabs (nth j (map B2R l) 0 - mean (target j (map (map B2R) group))) <= 2 * (INR n * INR n) * sqrt (real_gain_error nt n B).
