(** Specification vocabulary for binary64 data sets whose labels are small integers, such as one-hot
    class labels or counts. *)
From Coq Require Import Reals List ZArith.
From Flocq Require Import Core.
From Flocq Require Import IEEE754.BinarySingleNaN.
From Verif Require Import Base Num ModelCommon Spec F64 XR SpecExact.
Local Open Scope R_scope.

(** The real number, or infinity, that a float stands for. *)
Definition exact_value (x : f64) : xr :=
  match x with
  | B754_nan => XNaN
  | B754_infinity false => PInf
  | B754_infinity true => NInf
  | _ => Fin (B2R x)
  end.

(** The same table for exact arithmetic. *)
Definition exact_data {P : platform} (d : @dataset (f64_ops P)) : @dataset xr_ops :=
  @mkDS xr_ops (map (map exact_value) (feature_rows d)) (map (map exact_value) (labels d))
       (map (map exact_value) (feature_columns d)).

(** Every label entry is an integer of absolute value at most [M]. *)
Definition integer_labels {P : platform} (M : Z) (d : @dataset (f64_ops P)) : Prop :=
  forall l x, In l (labels d) -> In x l -> exists z, x = f64_of_Z z /\ (Z.abs z <= M)%Z.

(** The labels as real vectors. *)
Definition real_values {P : platform} (d : @dataset (f64_ops P)) : list (list R) := map (map B2R) (labels d).

(** All sums of squared labels fit the 53 bits of a float. *)
Definition sums_fit {P : platform} (M : Z) (d : @dataset (f64_ops P)) : Prop :=
  (1 <= M)%Z /\ (Z.of_nat (length (labels d)) * (M * M) <= 2 ^ 53)%Z.

(** How far the computed gain can be from the exact one with [k] targets. *)
Definition gain_error (k : nat) (M : Z) : R := 4 * (INR k + 4) * (INR k + 4) * IZR (M * M) / 2 ^ 53.

(** The same question for exact arithmetic. *)
Definition exact_question {P : platform} (q : @question (f64_ops P)) : @question xr_ops :=
  @Question xr_ops (q_column q) (exact_value (q_value q)).

(** Few enough rows, targets and label values for a float gain of zero to mean a true gain of zero:
    [(k + 4)^2 * M^2 * n^4 < 2^53] for [n] rows, [k] targets and labels of absolute value at most [M]. *)
Definition small_table {P : platform} (M : Z) (k : nat) (d : @dataset (f64_ops P)) : Prop :=
  let n := Z.of_nat (length (labels d)) in
  (1 <= M)%Z /\ ((Z.of_nat k + 4) * (Z.of_nat k + 4) * (M * M) * (n * n * (n * n)) < 2 ^ 53)%Z.

(** Rows whose features are equal as numbers have equal labels. *)
Definition consistent_rows {P : platform} (d : @dataset (f64_ops P)) : Prop :=
  forall row row' l l', In (row, l) (samples d) -> In (row', l') (samples d) ->
    Forall2 (fun x y => @feqb (f64_ops P) x y = true) row row' -> l = l'.

(** The float nearest to a real number (ties to even), as a real number. *)
Definition nearest (x : R) : R := round radix2 (FLT_exp (-1074) 53) ZnearestE x.
