(** Properties C09, C13 and the binary64 part of C14: the split finder, on every platform. *)
From Coq Require Import Permutation Sorted Reals.
From Flocq Require Import IEEE754.BinarySingleNaN.
From Verif Require Import Base Num ModelCommon ModelTree Spec SpecTree F64 ProofSplit2 ProofTree3 ProofSplitF64 Decide Check.
Local Open Scope nat_scope.

Definition z (n : Z) : f64 := f64_of_Z n.
Definition NaN : f64 := B754_nan.
Definition inf : f64 := B754_infinity false.

(** Four rows, two features (the first with a repeated value), two targets. *)
Definition four : @dataset (f64_ops demo_platform) :=
  @mkDS (f64_ops demo_platform)
    [[z 5; z 1]; [z 2; z 7]; [z 9; z 0]; [z 2; z 3]]
    [[z 1; z 0]; [z 0; z 1]; [z 1; z 0]; [z 0; z 3]]
    [[z 5; z 2; z 9; z 2]; [z 1; z 7; z 0; z 3]].

Example four_is_well_formed : wf_dataset 2 2 four.
Proof. check_wf. Qed.

(* ------------------------------------------------------------------ *)
(** ** C09 *)

Theorem C09_reported_split_is_usable (P : platform) (nc nt : nat) (d : dataset) :
  wf_dataset nc nt d ->
  exists b, find_best_split d (N.of_nat nt) = Ok b /\ fleb f0 (bs_gain b) = true /\
    (feqb (bs_gain b) f0 = false ->
      let c := N.to_nat (q_column (bs_question b)) in
      let v := q_value (bs_question b) in
      c < nc /\
      (exists i row, nth_error (feature_rows d) i = Some row /\ nth_error row c = Some v) /\
      (exists i row u, nth_error (feature_rows d) i = Some row /\ nth_error row c = Some u /\ fltb u v = true) /\
      exists fd td, partition d (bs_question b) = Ok (fd, td) /\ feature_rows fd <> [] /\ feature_rows td <> []).
Proof. exact (usable_split (f64_laws P) nc nt d). Qed.
Print Assumptions C09_reported_split_is_usable.

Theorem C09_gain_is_a_number (P : platform) (nc nt : nat) (d : dataset) (b : best_split) :
  wf_dataset nc nt d -> find_best_split d (N.of_nat nt) = Ok b -> is_nan (bs_gain b) = false.
Proof. exact (gain_is_a_number P nc nt d b). Qed.
Print Assumptions C09_gain_is_a_number.

Example C09_example :
  find_best_split four 2 = Ok (@mkBS (f64_ops demo_platform) (Bdiv mode_NE (z 5) (z 4)) (@Question (f64_ops demo_platform) 0 (z 5))).
Proof. compute_eq. Qed.

(** Labels with NaN and infinities: no usable gain, no panic. *)
Definition wild : @dataset (f64_ops demo_platform) :=
  @mkDS (f64_ops demo_platform) [[z 1]; [z 2]; [inf]] [[NaN]; [inf]; [z 3]] [[z 1; z 2; inf]].
Example C09_example_wild :
  wf_dataset 1 1 wild /\
  find_best_split wild 1 = Ok (@mkBS (f64_ops demo_platform) (z 0) (@Question (f64_ops demo_platform) 0 (z 0))).
Proof. split; [check_wf|compute_eq]. Qed.

(* ------------------------------------------------------------------ *)
(** ** C13 *)

Theorem C13_best_of_the_columns (P : platform) (nc nt : nat) (d : dataset) (b : best_split) :
  wf_dataset nc nt d -> find_best_split d (N.of_nat nt) = Ok b ->
  (forall j, j < nc -> exists bj, find_best_split (only_column j d) (N.of_nat nt) = Ok bj /\
     fleb (bs_gain bj) (bs_gain b) = true) /\
  (b = mkBS f0 (Question 0 f0) \/
   exists j bj, j < nc /\ find_best_split (only_column j d) (N.of_nat nt) = Ok bj /\
     fltb f0 (bs_gain b) = true /\
     bs_gain b = bs_gain bj /\ q_column (bs_question b) = N.of_nat j /\
     q_value (bs_question b) = q_value (bs_question bj) /\
     forall i bi, i < j -> find_best_split (only_column i d) (N.of_nat nt) = Ok bi ->
       fltb (bs_gain bi) (bs_gain b) = true).
Proof. exact (split_is_best_column (f64_laws P) nc nt d b). Qed.
Print Assumptions C13_best_of_the_columns.

(** Both columns of [four] offer the same gain: the first is chosen. *)
Example C13_example :
  let O := f64_ops demo_platform in
  find_best_split (only_column 0 four) 2 = Ok (@mkBS O (Bdiv mode_NE (z 5) (z 4)) (@Question O 0 (z 5))) /\
  find_best_split (only_column 1 four) 2 = Ok (@mkBS O (Bdiv mode_NE (z 5) (z 4)) (@Question O 0 (z 3))).
Proof. compute_eqs. Qed.

(* ------------------------------------------------------------------ *)
(** ** C14 (binary64): rounding can make a pure node look splittable *)

Theorem C14_binary64_counterexample :
  exists (P : platform) (d : @dataset (f64_ops P)) (l : list f64) (b : @best_split (f64_ops P)),
    wf_dataset 1 1 d /\ (forall x, In x (labels d) -> x = l) /\
    find_best_split d 1 = Ok b /\ fltb f0 (bs_gain b) = true.
Proof. exact pure_node_split. Qed.
Print Assumptions C14_binary64_counterexample.
