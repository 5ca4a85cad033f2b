(** Specification vocabulary for C90: the subtree at a node and the rows that reach it. *)
From Verif Require Import Base Num ModelCommon ModelTree Spec SpecTree.

Section SpecBelow.
Context {O : NumOps}.

(** [below steps t s]: going down from the root of [t] by answering the questions met as listed in [steps] (question, answer)
    leads to the node [s]. *)
Inductive below {L} : list (question * bool) -> tree_node L -> tree_node L -> Prop :=
| below_here t : below [] t t
| below_true q steps t f s : below steps t s -> below ((q, true) :: steps) (TreeNode L q (Some t) (Some f) None) s
| below_false q steps t f s : below steps f s -> below ((q, false) :: steps) (TreeNode L q (Some t) (Some f) None) s.

(** The row answers every question as listed. *)
Definition takes (steps : list (question * bool)) (row : list F) : bool :=
  forallb (fun s => Bool.eqb (answers (fst s) row) (snd s)) steps.

(** The rows of [d] that satisfy [keep], in order, with their labels and their part of the columns. *)
Definition only_rows (keep : list F -> bool) (d : dataset) : dataset :=
  mkDS (map fst (filter (fun p => keep (fst p)) (samples d))) (map snd (filter (fun p => keep (fst p)) (samples d)))
       (map (fun col => map snd (filter (fun p => keep (fst p)) (combine (feature_rows d) col))) (feature_columns d)).

(** The configuration that is left after [k] questions. *)
Definition levels_left (k : nat) (cfg : tree_config) : tree_config := with_levels (tc_max_levels cfg - N.of_nat k) cfg.

End SpecBelow.
