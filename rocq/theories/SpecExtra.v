(** Specification vocabulary for redundant features (C59) and tree size (C60). *)
From Verif Require Import Base Num ModelCommon ModelTree Spec SpecTree.

Section SpecExtra.
Context {O : NumOps}.

(** The row with extra entries, each computed from the row, at its end. *)
Definition extend_row (es : list (list F -> F)) (row : list F) : list F := row ++ map (fun e => e row) es.

(** The data set with extra columns after the others. *)
Definition extend (es : list (list F -> F)) (d : dataset) : dataset :=
  mkDS (map (extend_row es) (feature_rows d)) (labels d)
       (feature_columns d ++ map (fun e => map e (feature_rows d)) es).

(** A column that tells nothing new about [rows], which have [nc] entries: it has the same value in all of them,
    or it orders them as entry [j] does. *)
Inductive redundant (nc : nat) (rows : list (list F)) (e : list F -> F) : Prop :=
| redundant_constant :
    (forall r r', In r rows -> In r' rows -> feqb (e r) (e r') = true) -> redundant nc rows e
| redundant_recoded j :
    j < nc ->
    (forall r r' x x', In r rows -> In r' rows -> nth_error r j = Some x -> nth_error r' j = Some x' ->
       fleb (e r) (e r') = fleb x x') -> redundant nc rows e.

(** [test'] is [test] with further entries at the end of its rows. *)
Definition longer_rows (test test' : dataset) : Prop :=
  Forall2 (fun r r' => exists xs, r' = r ++ xs) (feature_rows test) (feature_rows test') /\ labels test' = labels test.

(** Number of nodes, leaves included. *)
Fixpoint node_count {L} (n : tree_node L) : nat :=
  match n with
  | TreeNode _ _ t f _ =>
      S (match t with Some n => node_count n | None => 0 end + match f with Some n => node_count n | None => 0 end)
  end.

End SpecExtra.
