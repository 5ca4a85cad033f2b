(** Specification vocabulary: classification tables and the share of the largest class. *)
From Verif Require Import Base Num ModelCommon ModelTree Spec SpecTree SpecScore.

Section SpecVote.
Context {O : NumOps}.

(** Every label vector is one-hot among [k] classes. *)
Definition class_labels (k : nat) (d : dataset) : Prop := Forall (fun y => exists c, one_hot k c y) (labels d).

(** How many of the label vectors belong to the most frequent of [k] classes. *)
Definition largest_class (k : nat) (ls : list (list F)) : nat := list_max (map (votes ls) (seq 0 k)).

(** How many samples of [d] the tree classifies correctly. *)
Definition hits (d : dataset) (t : tree_node regression_leaf) : nat := length (correct_samples (fun row => predict_class row t) d).

End SpecVote.
