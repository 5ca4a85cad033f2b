(** Specification vocabulary for C110: test rows with the same features. *)
From Coq Require Import Reals List.
From Verif Require Import Base Num ModelCommon ModelTree ModelBoost Spec SpecTree XR SpecExact SpecScore.
Import ListNotations.
Local Open Scope R_scope.

(** All samples of a list of groups, each a feature row with the labels it occurs with. *)
Definition listed {X Y} (groups : list (X * list Y)) : list (X * Y) :=
  flat_map (fun g => map (fun y => (fst g, y)) (snd g)) groups.

(** The mean label vector of a group. *)
Definition mean_label (k : nat) (ls : list (list R)) : list R := map (fun j => mean (target j ls)) (seq 0 k).

(** What is left of the mean squared error when every group is answered with its mean label: the size-weighted average
    of the groups' label variances, per target. *)
Definition irreducible_error {X} (k : nat) (groups : list (X * list (list R))) : R :=
  Rsum (map (fun g => INR (length (snd g)) * total_variance k (snd g)) groups) / (INR k * INR (length (listed groups))).

(** The number of rows of the class that most of the label vectors have. *)
Definition largest_class {O : NumOps} (k : nat) (ls : list (list F)) : nat := list_max (map (votes ls) (seq 0 k)).
