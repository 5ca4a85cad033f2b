(** Specification vocabulary for when training panics (C64). *)
From Verif Require Import Base Num ModelCommon ModelTree Spec.

Section SpecPanic.
Context {O : NumOps}.

(** A training set of consistent shape with [nc] features and [nt] targets: possibly empty, possibly with NaN features. *)
Record rect_dataset (nc nt : nat) (d : dataset) : Prop := {
  rd_lengths : length (labels d) = length (feature_rows d);
  rd_rows : rectangular nc (feature_rows d);
  rd_labels : rectangular nt (labels d);
  rd_columns : is_transpose nc (feature_rows d) (feature_columns d);
  rd_u32 : (N.of_nat nc <= 2 ^ 32)%N }.

(** There is a row, and unless it is the only one, no feature is NaN. *)
Definition trainable (d : dataset) : Prop :=
  feature_rows d <> [] /\ (length (feature_rows d) = 1 \/ Forall (Forall is_num) (feature_rows d)).

(** [r] is a result when [c] holds, and a panic when it does not. *)
Definition succeeds_exactly_if {A} (c : Prop) (r : res A) : Prop :=
  (c -> exists x, r = Ok x) /\ (~ c -> r = Panic).

End SpecPanic.
