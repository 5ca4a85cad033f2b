(** Specification vocabulary for C112: training that cannot ask anything. *)
From Verif Require Import Base Num ModelCommon ModelTree Spec SpecTree.

(** Trees may have no levels, or all training rows have the same features. *)
Definition nothing_to_ask {O : NumOps} (cfg : tree_config) (rows : list (list F)) : Prop :=
  tc_max_levels cfg = 0%N \/ forall r r', In r rows -> In r' rows -> r = r'.
