(** Specification vocabulary: the feature columns in another order (C70). *)
From Coq Require Import Permutation.
From Verif Require Import Base Num ModelCommon ModelTree Spec.

(** [order] lists each of the [k] columns once. *)
Definition column_order (k : nat) (order : list nat) : Prop := Permutation order (seq 0 k).

(** Where column [c] stands in [order]. *)
Fixpoint position (order : list nat) (c : nat) : nat :=
  match order with [] => 0 | j :: rest => if Nat.eqb j c then 0 else S (position rest c) end.

Section SpecColumns.
Context {O : NumOps}.

(** The row whose [i]-th entry is entry [nth i order] of [row]. *)
Definition reorder_row (order : list nat) (row : list F) : list F := map (fun j => nth j row f0) order.

(** The data set with its columns in the given order. *)
Definition reorder (order : list nat) (d : dataset) : dataset :=
  mkDS (map (reorder_row order) (feature_rows d)) (labels d) (map (fun j => nth j (feature_columns d) []) order).

(** Column [c] alone offers a strictly larger gain than each other column alone. *)
Definition clear_winner (nc nt : nat) (d : dataset) (c : nat) : Prop :=
  c < nc /\ exists bc, find_best_split (only_column c d) (N.of_nat nt) = Ok bc /\
    forall j bj, j < nc -> j <> c -> find_best_split (only_column j d) (N.of_nat nt) = Ok bj ->
      fltb (bs_gain bj) (bs_gain bc) = true.

(** At each question of the tree grown from [d], the column asked about is the clear winner on the rows that get there. *)
Inductive decisive (nc nt : nat) {L} : dataset -> tree_node L -> Prop :=
| decisive_leaf d q l : decisive nc nt d (leaf_node q l)
| decisive_node d q t f fd td :
    clear_winner nc nt d (N.to_nat (q_column q)) -> partition d q = Ok (fd, td) ->
    decisive nc nt td t -> decisive nc nt fd f ->
    decisive nc nt d (node_new q t f).

(** The same tree, each question asking about the column's new position; leaves related by [R]. *)
Inductive same_but_columns (order : list nat) {L} (R : L -> L -> Prop) : tree_node L -> tree_node L -> Prop :=
| sbc_leaf q q' l l' : R l l' -> same_but_columns order R (leaf_node q l) (leaf_node q' l')
| sbc_node c v t f t' f' :
    same_but_columns order R t t' -> same_but_columns order R f f' ->
    same_but_columns order R (node_new (Question (N.of_nat c) v) t f)
                             (node_new (Question (N.of_nat (position order c)) v) t' f').

(** Leaves holding the same samples, columns reordered. *)
Definition reordered_leaf (order : list nat) (l l' : regression_leaf) : Prop :=
  exists x, rl_data l = Some x /\ rl_data l' = Some (reorder order x).

End SpecColumns.
