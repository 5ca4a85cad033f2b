(** Specification vocabulary: the outputs of one tree of an ensemble (exact arithmetic, C67). *)
From Coq Require Import Reals List.
From Verif Require Import Base Num ModelCommon ModelTree XR.

(** [os] are the output vectors of the leaves that [rows] reach in [t]. *)
Definition outputs (t : tree_node (@grad_boost_leaf xr_ops)) (rows : list (list xr)) (os : list (list R)) : Prop :=
  Forall2 (fun row o => exists l, find_leaf_node_for_data row t = Ok l /\ gl_output l = Some (map Fin o)) rows os.
