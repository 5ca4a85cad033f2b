(** Specification vocabulary: the training samples that reach a node of a tree. *)
From Coq Require Import Reals List.
From Verif Require Import Base Num ModelCommon ModelTree Spec SpecTree F64 XR SpecExact SpecInt SpecNear.

Section SpecNode.
Context {O : NumOps}.

(** The samples that answer every question of [qs] as [row] does. *)
Definition answering_like (qs : list question) (row : list F) (S : list (list F * list F)) : list (list F * list F) :=
  filter (fun p => forallb (fun q => Bool.eqb (answers q (fst p)) (answers q row)) qs) S.

(** The rows and labels of a list of samples as a table. *)
Definition table_of (S : list (list F * list F)) : dataset := mkDS (map fst S) (map snd S) [].

End SpecNode.

Local Open Scope R_scope.
Local Existing Instance f64_ops.
Local Remove Hints xr_ops : typeclass_instances.

(** At every node on the path of any row, the node's question [q] gains, on the rows and labels that reach the node,
    at most twice the rounding error less than any other question [q'], if [q]'s value occurs once there. *)
Definition nearly_best_questions {P : platform} {L} (B : R) (nt : nat) (d : @dataset (f64_ops P)) (t : @tree_node (f64_ops P) L) : Prop :=
  forall (x : list f64) n (q q' : @question (f64_ops P)), nth_error (path x t) n = Some q ->
    let here := table_of (answering_like (firstn n (path x t)) x (samples d)) in
    occurs_once (exact_data here) (exact_question q) ->
    question_gain nt (exact_question q') (feature_rows (exact_data here)) (real_values here) <=
    question_gain nt (exact_question q) (feature_rows (exact_data here)) (real_values here) +
    2 * real_gain_error nt (length (labels here)) B.

(** On the rows and labels that reach a leaf above depth [m], no question gains more than the rounding error. *)
Definition little_left {P : platform} {L} (B : R) (nt : nat) (m : N) (d : @dataset (f64_ops P)) (t : @tree_node (f64_ops P) L) : Prop :=
  forall (x : list f64) (q' : @question (f64_ops P)), (N.of_nat (length (path x t)) < m)%N ->
    let here := table_of (answering_like (path x t) x (samples d)) in
    question_gain nt (exact_question q') (feature_rows (exact_data here)) (real_values here) <=
    real_gain_error nt (length (labels here)) B.
