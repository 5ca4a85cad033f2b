(** Specification vocabulary: what the property statements mean, without reference to how the code
    computes. Only data types of the model are used here. *)
From Coq Require Import Permutation Sorted.
From Verif Require Import Base Num ModelCommon.

Section Spec.
Context {O : NumOps}.

(** A value that is not NaN. *)
Definition is_num (x : F) : Prop := fleb x x = true.

(** Every row has [n] entries. *)
Definition rectangular {A} (n : nat) (rows : list (list A)) : Prop :=
  Forall (fun r => length r = n) rows.

(** [cols] has [nc] columns; column [j] lists entry [j] of every row, in row order. *)
Definition is_transpose {A} (nc : nat) (rows cols : list (list A)) : Prop :=
  length cols = nc /\
  forall j col, nth_error cols j = Some col ->
    length col = length rows /\
    forall i row, nth_error rows i = Some row -> j < length row /\ nth_error col i = nth_error row j.

(** [v] has [k] entries, 1 at [c] and 0 elsewhere. *)
Definition one_hot (k : nat) (c : N) (v : list F) : Prop :=
  (c < N.of_nat k)%N /\ length v = k /\
  forall i, i < k -> nth_error v i = Some (if (N.of_nat i =? c)%N then f1 else f0).

(** Strict lexicographic order on (value, row index) pairs. *)
Definition pair_lt (a b : F * nat) : Prop :=
  fltb (fst a) (fst b) = true \/ (feqb (fst a) (fst b) = true /\ snd a < snd b).

(** The (value, position) pairs of a column. *)
Definition value_positions (col : list F) : list (F * nat) := combine col (seq 0 (length col)).

(** [r] is [col]'s (value, position) pairs in ascending order. *)
Definition sorted_version (col : list F) (r : list (F * nat)) : Prop :=
  Permutation r (value_positions col) /\ StronglySorted pair_lt r.

(** A question's answer for a row: is the value at the column at least the threshold? *)
Definition answers (q : question) (row : list F) : bool :=
  match nth_error row (N.to_nat (q_column q)) with
  | Some v => fleb (q_value q) v
  | None => false
  end.

(** A well-formed training set with [nc] features and [nt] targets; labels are arbitrary floats. *)
Record wf_dataset (nc nt : nat) (d : dataset) : Prop := {
  wf_nonempty : feature_rows d <> [];
  wf_lengths : length (labels d) = length (feature_rows d);
  wf_rows : rectangular nc (feature_rows d);
  wf_labels : rectangular nt (labels d);
  wf_columns : is_transpose nc (feature_rows d) (feature_columns d);
  wf_nonan : Forall (Forall is_num) (feature_rows d);
  wf_u32 : (N.of_nat nc <= 2 ^ 32)%N }.

(** The (row, label) pairs of a data set. *)
Definition samples (d : dataset) : list (list F * list F) := combine (feature_rows d) (labels d).

(** Row [i] of the table has a value of at least [v] in column [c]. *)
Definition reaches (rows : list (list F)) (c : nat) (v : F) (i : nat) : bool :=
  match nth_error rows i with
  | Some row => match nth_error row c with Some x => fleb v x | None => false end
  | None => false
  end.

(** [s] is the sorted-column form of the rows [ids] (ascending) of the table [(rows, all_labels)]. *)
Record node_data (nc : nat) (rows all_labels : list (list F)) (ids : list nat) (s : sorted_dataset)
  : Prop := {
  nd_ids_sorted : StronglySorted lt ids;
  nd_ids_bound : Forall (fun i => i < length all_labels) ids;
  nd_labels : Forall2 (fun i l => nth_error all_labels i = Some l) ids (s_labels s);
  nd_ncols : length (s_columns s) = nc;
  nd_cols : forall j col, nth_error (s_columns s) j = Some col ->
    StronglySorted pair_lt col /\
    Permutation (map snd col) ids /\
    Forall (fun p => exists row, nth_error rows (snd p) = Some row /\ nth_error row j = Some (fst p)) col }.

(** The data set reduced to column [j]. *)
Definition only_column (j : nat) (d : dataset) : dataset :=
  mkDS (map (fun row => match nth_error row j with Some x => [x] | None => [] end) (feature_rows d))
       (labels d)
       (match nth_error (feature_columns d) j with Some col => [col] | None => [] end).

End Spec.
