(** Specification vocabulary: a training set with every row repeated (C72). *)
From Verif Require Import Base Num ModelCommon ModelTree.

(** Each element [m] times, copies next to each other. *)
Definition copies {A} (m : nat) (l : list A) : list A := flat_map (fun x => repeat x m) l.

Section SpecCopies.
Context {O : NumOps}.

(** The data set with each row, its label included, [m] times. *)
Definition repeat_rows (m : nat) (d : dataset) : dataset :=
  mkDS (copies m (feature_rows d)) (copies m (labels d)) (map (copies m) (feature_columns d)).

(** The second leaf holds the first leaf's rows, each [m] times. *)
Definition repeated_leaf (m : nat) (l l' : regression_leaf) : Prop :=
  exists x, rl_data l = Some x /\ rl_data l' = Some (repeat_rows m x).

End SpecCopies.
