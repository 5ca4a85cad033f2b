(** Specification: data sets with one more target. *)
From Verif Require Import Base Num ModelCommon ModelTree.

(** [l] with [x] inserted before position [p]. *)
Definition insert_at {A} (p : nat) (x : A) (l : list A) : list A := firstn p l ++ x :: skipn p l.

(** The same rows with one more target, labelled [c] in every row. *)
Definition with_constant_target {O : NumOps} (p : nat) (c : F) (d : dataset) : dataset :=
  mkDS (feature_rows d) (map (insert_at p c) (labels d)) (feature_columns d).

(** The same configuration for one more target. *)
Definition one_more_target {O : NumOps} (cfg : tree_config) : tree_config :=
  mkTC (tc_split_finder cfg) (tc_use_multi_threading cfg) (tc_number_of_classes cfg + 1) (tc_max_levels cfg).
