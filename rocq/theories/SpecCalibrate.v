(** Specification vocabulary: what predictions leave over on the training rows of one leaf (exact arithmetic, C108). *)
From Coq Require Import Reals List.
From Verif Require Import Base Num ModelCommon ModelTree Spec SpecTree XR SpecExact.
Local Open Scope R_scope.

(** Row [b] answers every question on the path of row [a] through [t] like [a] does: it ends in the same leaf. *)
Definition same_leaf {L} (t : tree_node L) (a b : list xr) : bool :=
  forallb (fun q => Bool.eqb (@answers xr_ops q b) (answers q a)) (path a t).

(** The mean of label minus prediction for target [j], over those of [rows] that end in the same leaf of [t] as [row]. *)
Definition left_over {L} (t : tree_node L) (rows : list (list xr)) (ls ps : list (list R)) (row : list xr) (j : nat) : R :=
  mean (map (fun p => nth j (fst (snd p)) 0 - nth j (snd (snd p)) 0) (filter (fun p => same_leaf t row (fst p)) (combine rows (combine ls ps)))).
