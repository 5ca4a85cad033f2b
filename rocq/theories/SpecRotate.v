(** Specification vocabulary: affine maps of the target space that preserve shapes (exact arithmetic). *)
From Coq Require Import Reals List.
From Verif Require Import Base Num ModelTree SpecExact.
Local Open Scope R_scope.

(** The sum of products. *)
Definition dot (a l : list R) : R := Rsum (map (fun p => fst p * snd p) (combine a l)).

(** The map with matrix [M] (a list of rows) and offset [v]: new target [j] is [M_j . l + v_j]. *)
Definition transform (M : list (list R)) (v l : list R) : list R := map (fun p => dot (fst p) l + snd p) (combine M v).

(** [M] has [nt] columns and multiplies every squared length by [w]: a rotation, a reflection, a change of unit, an
    embedding into more targets, or a combination of them. *)
Definition keeps_shapes (nt : nat) (w : R) (M : list (list R)) : Prop :=
  0 < w /\ Forall (fun a => length a = nt) M /\
  forall l, length l = nt -> Rsum (map (fun a => dot a l * dot a l) M) = w * Rsum (map (fun x => x * x) l).

(** The same configuration for [k] targets. *)
Definition for_targets {O : NumOps} (k : nat) (cfg : tree_config) : tree_config :=
  mkTC (tc_split_finder cfg) (tc_use_multi_threading cfg) (N.of_nat k) (tc_max_levels cfg).

(** Targets that are all computed from one number: new target [j] is [a_j * y + b_j]. *)
Definition from_one (a b : list R) (y : R) : list R := map (fun p => fst p * y + snd p) (combine a b).
