(** Specification vocabulary for how well trees and ensembles fit. *)
From Coq Require Import Reals.
From Verif Require Import Base Num ModelCommon ModelTree Spec.

Section SpecFit.
Context {O : NumOps}.

(** The prediction a regression tree's score uses for a row: the average of the label vectors in its leaf. *)
Definition tree_prediction (row : list F) (t : tree_node regression_leaf) : res (list F) :=
  leaf <- find_leaf_node_for_data row t;;
  d <- unwrap (rl_data leaf);;
  calculate_average_label_vector (labels d).

(** Rows with equal features have equal labels. *)
Definition consistent (d : dataset) : Prop :=
  forall row l l', In (row, l) (samples d) -> In (row, l') (samples d) -> l = l'.

End SpecFit.
