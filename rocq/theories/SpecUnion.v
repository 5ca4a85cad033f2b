(** Specification vocabulary for C111: two test sets taken together. *)
From Verif Require Import Base Num ModelCommon Spec.

(** [c] has the rows and labels of [a], then those of [b]; feature columns play no role in testing. *)
Definition together {O : NumOps} (a b c : dataset) : Prop :=
  feature_rows c = feature_rows a ++ feature_rows b /\ labels c = labels a ++ labels b.

(** A test set that can be scored: as many labels as rows, at least one, and an answer to each row. *)
Definition scorable {O : NumOps} (predict : list F -> res (list F)) (a : dataset) : Prop :=
  length (labels a) = length (feature_rows a) /\ feature_rows a <> [] /\ Forall (fun row => exists v, predict row = Ok v) (feature_rows a).
