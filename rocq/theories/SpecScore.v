(** Specification vocabulary for predictions, scores and ensembles. *)
From Verif Require Import Base Num ModelCommon ModelTree ModelBoost Spec SpecTree.

Section SpecScore.
Context {O : NumOps}.

(** How many of the label vectors have a 1 at class [i]. *)
Definition votes (ls : list (list F)) (i : nat) : nat :=
  length (filter (fun l => match nth_error l i with Some x => feqb x f1 | None => false end) ls).

(** [c] is the class with most votes among the first [k], the lowest one on ties. *)
Definition most_votes (k : nat) (ls : list (list F)) (c : nat) : Prop :=
  c < k /\ forall i, i < k -> votes ls i <= votes ls c /\ (i < c -> votes ls i < votes ls c).

(** [c] is the position of the first largest score above -infinity, or 0 when there is none. *)
Definition first_largest (s : list F) (c : nat) : Prop :=
  (exists m, nth_error s c = Some m /\ fltb fninf m = true /\
     forall i x, nth_error s i = Some x -> fltb m x = false /\ (i < c -> fltb x m = true \/ ~ is_num x)) \/
  (c = 0 /\ forall x, In x s -> fltb fninf x = false).

(** Vectors of the same length with equal entries. *)
Definition equal_vectors (a b : list F) : bool :=
  (length a =? length b) && forallb (fun p => feqb (fst p) (snd p)) (combine a b).

(** A test sample predicted correctly. *)
Definition row_correct (predict : list F -> res (list F)) (p : list F * list F) : Prop :=
  exists v, predict (fst p) = Ok v /\ equal_vectors v (snd p) = true.

(** The test samples whose prediction equals the label. *)
Definition correct_samples (predict : list F -> res (list F)) (test : dataset) : list (list F * list F) :=
  filter (fun p => match predict (fst p) with Ok v => equal_vectors v (snd p) | _ => false end) (samples test).

(** The model made of the first [n] trees. *)
Definition first_trees {L} (n : nat) (m : model L) : model L :=
  mkModel (firstn n (m_trees m)) (m_initial_guess m) (m_learning_rate m).

(** Entry-wise difference of two lists of vectors. *)
Definition differences (a b : list (list F)) : list (list F) :=
  map (fun p => map (fun q => fsub (fst q) (snd q)) (combine (fst p) (snd p))) (combine a b).

(** Softmax with the code's order of operations: every exponential times 1/(sum of exponentials). *)
Definition softmax (s : list F) : list F :=
  map (fun x => fmul (fexp x) (fdiv f1 (fold_left fadd (map fexp s) fsum0))) s.

(** Average of target [j], summed in order from zero. *)
Definition average_of (ls : list (list F)) (j : nat) : F :=
  fdiv (fold_left fadd (flat_map (fun l => match nth_error l j with Some x => [x] | None => [] end) ls) f0)
       (f_of_nat (length ls)).

(** The classification leaf output for class [j] of [k]: sum(r) / sum(|r|(1-|r|)) * ((k-1)/k), summed in order from zero. *)
Definition class_output_of (k : nat) (ls : list (list F)) (j : nat) : F :=
  let entries := flat_map (fun l => match nth_error l j with Some x => [x] | None => [] end) ls in
  fmul (fdiv (fold_left fadd entries f0) (fold_left fadd (map (fun x => fmul (fabs x) (fsub f1 (fabs x))) entries) f0))
       (fdiv (fsub (f_of_nat k) f1) (f_of_nat k)).

(** Average over rows of the average over targets of the squared differences, in the code's order;
    [start] is the value from which the inner sums start. *)
Definition squared_error_of (start : F) (p : list F * list F) : F :=
  fdiv (fold_left fadd (map (fun q => fsqr (fsub (fst q) (snd q))) (combine (fst p) (snd p))) start)
       (f_of_nat (length (fst p))).
Definition mean_squared_error_of (start : F) (pairs : list (list F * list F)) : F :=
  fdiv (fold_left fadd (map (squared_error_of start) pairs) f0) (f_of_nat (length pairs)).

(** The samples of [d] that give [row]'s answers to the questions [row] meets in [t]. *)
Definition samples_like {L} (row : list F) (t : tree_node L) (d : dataset) : list (list F * list F) :=
  filter (fun p => forallb (fun q => Bool.eqb (answers q (fst p)) (answers q row)) (path row t)) (samples d).

End SpecScore.
