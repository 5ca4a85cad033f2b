(** Specification vocabulary for exact arithmetic: real-valued means, variances and variance
    reductions, and the questions' true effect on a table. *)
From Coq Require Import Reals List.
From Verif Require Import Base Num ModelCommon Spec XR.
Local Open Scope R_scope.

Definition Rsum (l : list R) : R := fold_right Rplus 0 l.
Definition mean (l : list R) : R := Rsum l / INR (length l).
Definition variance (l : list R) : R := Rsum (map (fun x => (x - mean l) * (x - mean l)) l) / INR (length l).

(** The values of target [t] in a list of label vectors. *)
Definition target (t : nat) (ls : list (list R)) : list R := map (fun l => nth t l 0) ls.

(** Sum over the [k] targets of the label variance. *)
Definition total_variance (k : nat) (ls : list (list R)) : R :=
  Rsum (map (fun t => variance (target t ls)) (seq 0 k)).

(** Variance left after splitting into [a] and [b]: the size-weighted average of the two variances. *)
Definition remaining_variance (k : nat) (a b : list (list R)) : R :=
  INR (length a) / INR (length a + length b) * total_variance k a +
  INR (length b) / INR (length a + length b) * total_variance k b.

(** The labels of the rows that answer [ans] to a question. *)
Definition labels_answering (ans : bool) (q : question) (rows : list (list xr)) (ls : list (list R)) : list (list R) :=
  map snd (filter (fun p => Bool.eqb (answers q (fst p)) ans) (combine rows ls)).

(** The true variance reduction of a question. *)
Definition question_gain (k : nat) (q : question) (rows : list (list xr)) (ls : list (list R)) : R :=
  total_variance k ls -
  remaining_variance k (labels_answering false q rows ls) (labels_answering true q rows ls).

(** The data set's labels are the real vectors [ls]. *)
Definition real_labels (ls : list (list R)) (d : dataset) : Prop := labels d = map (map Fin) ls.

(** No value above the minimum of its column is repeated in that column. *)
Definition distinct_above_minimum (d : dataset) : Prop :=
  forall j i i' ri ri' v v' m rm,
    nth_error (feature_rows d) i = Some ri -> nth_error (feature_rows d) i' = Some ri' ->
    nth_error ri j = Some v -> nth_error ri' j = Some v' -> i <> i' ->
    In rm (feature_rows d) -> nth_error rm j = Some m -> xltb m v = true -> v <> v'.

(** Rows that share a value above the minimum of its column have the same label. *)
Definition ties_agree (d : dataset) : Prop :=
  forall j ri li ri' li' v m rm,
    In (ri, li) (samples d) -> In (ri', li') (samples d) ->
    nth_error ri j = Some v -> nth_error ri' j = Some v ->
    In rm (feature_rows d) -> nth_error rm j = Some m -> xltb m v = true -> li = li'.

(** Labels listed in the order of a sorted column. *)
Definition labels_in_order (ls : list (list R)) (r : list (xr * nat)) : list (list R) :=
  map (fun p => nth (snd p) ls []) r.

(** Variance reduction of cutting an ordered list of labels after its first [i] entries. *)
Definition cut_gain (k i : nat) (ls : list (list R)) : R :=
  total_variance k ls - remaining_variance k (firstn i ls) (skipn i ls).

(** A cut the finder considers: position [i] in the sorted column, its value above the column's minimum. *)
Definition considered (d : dataset) (j : nat) (r : list (xr * nat)) (i : nat) (v : xr) : Prop :=
  (exists col, nth_error (feature_columns d) j = Some col /\ sorted_version col r) /\
  (exists id m, nth_error r i = Some (v, id) /\ hd_error r = Some m /\ xltb (fst m) v = true).

(** Only one row has the question's own threshold value in the question's column. *)
Definition occurs_once (d : dataset) (q : question) : Prop :=
  forall i i' ri ri',
    nth_error (feature_rows d) i = Some ri -> nth_error (feature_rows d) i' = Some ri' ->
    nth_error ri (N.to_nat (q_column q)) = Some (q_value q) ->
    nth_error ri' (N.to_nat (q_column q)) = Some (q_value q) -> i = i'.
