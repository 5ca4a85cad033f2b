(** Specification vocabulary: ensembles trained on reordered feature columns (C100). *)
From Verif Require Import Base Num ModelCommon ModelTree ModelBoost Spec SpecTree SpecScore SpecColumns.

Section SpecColumnsBoost.
Context {O : NumOps}.

(** Each tree of the ensemble [m] is decisive on the data it was grown from: the rows of [d] labelled with the
    differences between the labels and what the trees before it make of each row. [raw m row] are the scores an ensemble
    gives to a row and [target] turns scores into what is subtracted: nothing is done to them in regression, and the
    softmax is taken in classification. *)
Definition decisive_stages {L} (raw : model L -> list F -> res (list F)) (target : list F -> list F)
    (nc nt : nat) (d : dataset) (m : model L) : Prop :=
  forall k t scores, nth_error (m_trees m) k = Some t -> mapM (raw (first_trees k m)) (feature_rows d) = Ok scores ->
    decisive nc nt (mkDS (feature_rows d) (differences (labels d) (map target scores)) (feature_columns d)) t.

(** The same ensemble, each question asking about the column's new position. *)
Definition same_ensemble_but_columns {L} (order : list nat) (m m' : model L) : Prop :=
  Forall2 (same_but_columns order eq) (m_trees m) (m_trees m') /\
  m_initial_guess m' = m_initial_guess m /\ m_learning_rate m' = m_learning_rate m.

End SpecColumnsBoost.
