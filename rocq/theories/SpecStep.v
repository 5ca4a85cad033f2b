(** Specification vocabulary for where a model's answers can change (C63). *)
From Verif Require Import Base Num ModelCommon ModelTree Spec SpecTree.

Section SpecStep.
Context {O : NumOps}.

(** [v] is a value of feature [j] in [rows]. *)
Definition training_value (rows : list (list F)) (j : nat) (v : F) : Prop :=
  exists r, In r rows /\ nth_error r j = Some v.

(** [v] is a value of feature [j] in [rows], and not the smallest. *)
Definition split_value (rows : list (list F)) (j : nat) (v : F) : Prop :=
  training_value rows j v /\ exists m, training_value rows j m /\ fltb m v = true.

(** Two rows of at least [nc] entries whose features reach the same split values. *)
Definition indistinct (nc : nat) (rows : list (list F)) (x y : list F) : Prop :=
  nc <= length x /\ nc <= length y /\
  forall j v a b, j < nc -> split_value rows j v -> nth_error x j = Some a -> nth_error y j = Some b ->
    fleb v a = fleb v b.

(** The questions of the inner nodes. *)
Fixpoint asked {L} (n : tree_node L) : list question :=
  match n with
  | TreeNode _ q (Some t) (Some f) _ => q :: asked t ++ asked f
  | _ => []
  end.

End SpecStep.
