(** Specification vocabulary for errors in exact arithmetic. *)
From Coq Require Import Reals List.
From Verif Require Import Base Num ModelCommon Spec XR SpecExact.
Local Open Scope R_scope.

(** Average over the [k] targets of the squared difference between a prediction and a label. *)
Definition row_error (k : nat) (prediction label : list R) : R :=
  mean (map (fun j => (nth j prediction 0 - nth j label 0) * (nth j prediction 0 - nth j label 0)) (seq 0 k)).

(** Average over the rows of the row errors. *)
Definition mean_squared_error (k : nat) (predictions ls : list (list R)) : R :=
  mean (map (fun p => row_error k (fst p) (snd p)) (combine predictions ls)).
