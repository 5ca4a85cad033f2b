(** Specification vocabulary for the order of the training rows (C61, C62). *)
From Coq Require Import Permutation.
From Verif Require Import Base Num ModelCommon ModelTree Spec SpecTree F64.

Section SpecOrder.
Context {O : NumOps}.

(** Same shape and the same questions, with related leaf payloads. *)
Inductive same_questions {L} (R : L -> L -> Prop) : tree_node L -> tree_node L -> Prop :=
| sq_leaf q l l' : R l l' -> same_questions R (leaf_node q l) (leaf_node q l')
| sq_node q t f t' f' : same_questions R t t' -> same_questions R f f' ->
    same_questions R (node_new q t f) (node_new q t' f').

(** Both leaves hold the same samples, in any order. *)
Definition same_samples (l l' : regression_leaf) : Prop :=
  exists x x', rl_data l = Some x /\ rl_data l' = Some x' /\ Permutation (samples x) (samples x').

End SpecOrder.

(** In binary64: rows that share a value above the minimum of its column hold the same float there (not one 0 and the
    other -0) and have the same label. *)
Definition float_ties_agree {P : platform} (d : @dataset (f64_ops P)) : Prop :=
  forall j ri li ri' li' v v' m rm,
    In (ri, li) (samples d) -> In (ri', li') (samples d) ->
    nth_error ri j = Some v -> nth_error ri' j = Some v' -> @feqb (f64_ops P) v v' = true ->
    In rm (feature_rows d) -> nth_error rm j = Some m -> @fltb (f64_ops P) m v = true -> v = v' /\ li = li'.
