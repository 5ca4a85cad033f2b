(** Specification vocabulary: ensembles trained on transformed features (C101). *)
From Verif Require Import Base Num ModelCommon ModelTree ModelBoost Spec SpecTree.

Section SpecTransformBoost.
Context {O : NumOps}.

(** The same tree with the same leaves, each threshold transformed like the feature it is about. *)
Inductive same_but_thresholds (phi : nat -> F -> F) {L} : tree_node L -> tree_node L -> Prop :=
| sbt_leaf q q' l : same_but_thresholds phi (leaf_node q l) (leaf_node q' l)
| sbt_node c v t f t' f' : same_but_thresholds phi t t' -> same_but_thresholds phi f f' ->
    same_but_thresholds phi (node_new (Question c v) t f) (node_new (Question c (phi (N.to_nat c) v)) t' f').

Definition same_ensemble_but_thresholds {L} (phi : nat -> F -> F) (m m' : model L) : Prop :=
  Forall2 (same_but_thresholds phi) (m_trees m) (m_trees m') /\
  m_initial_guess m' = m_initial_guess m /\ m_learning_rate m' = m_learning_rate m.

End SpecTransformBoost.
