(** Properties C79 and C80: the leaf outputs of classification trees in binary64. *)
From Coq Require Import Reals ZArith.
From Flocq Require Import Core.
From Flocq Require Import IEEE754.BinarySingleNaN.
From Verif Require Import Base Num ModelCommon ModelTree ModelBoost Spec SpecTree F64 SpecExact SpecClass SpecScore SpecPredict SpecSaturate
  ProofSoftmax ProofSaturate ProofCollapse ProofCollapse2 Decide Check Demo DemoSaturate.
Local Open Scope R_scope.
Local Existing Instance f64_ops.

(* ------------------------------------------------------------------ *)
(** ** C79 *)

(** An entry of a leaf's output is finite exactly if some residual of that class in the leaf lies strictly between
    0 and 1 in absolute value; it is NaN if all of them are zero. *)
Theorem C79_leaf_entry_is_finite_exactly_when (P : platform) (nc nt : nat) (d : @dataset (f64_ops P)) (cfg : @tree_config (f64_ops P))
    (t : tree_node grad_boost_leaf) (row : list F) :
  wf_dataset nc nt d -> (2 <= nt)%nat -> (Z.of_nat nt <= 2 ^ 40)%Z -> (Z.of_nat (length (labels d)) <= 2 ^ 40)%Z -> residual_table (labels d) ->
  grad_boost_tree_new d cfg (leaf_output_calculator_new MultiClassClassification) = Ok t -> (nc <= length row)%nat ->
  exists o, find_leaf_node_for_data row t = Ok (mkGL (Some o)) /\ length o = nt /\
    forall j v, nth_error o j = Some v ->
      (is_finite (v : f64) = true <-> exists r y x, In (r, y) (samples_like row t d) /\ nth_error y j = Some x /\ 0 < Rabs (B2R x) < 1) /\
      ((forall r y x, In (r, y) (samples_like row t d) -> nth_error y j = Some x -> B2R x = 0) -> v = B754_nan).
Proof. exact (leaf_entry_finite P nc nt d cfg t row). Qed.
Print Assumptions C79_leaf_entry_is_finite_exactly_when.

(** The residuals of one-hot labels and moderate scores meet that theorem's condition. *)
Theorem C79_residuals_of_moderate_scores (P : platform) (nt : nat) (d : @dataset (f64_ops P)) (scores : list (list F)) :
  accurate_exp P -> Forall (fun y => exists c, one_hot nt c y) (labels d) -> (1 <= nt)%nat -> (Z.of_nat nt <= 2 ^ 40)%Z ->
  Forall2 (fun y s => length y = length s) (labels d) scores ->
  Forall (Forall (fun x : F => is_finite (x : f64) = true /\ Rabs (B2R (x : f64)) <= 200)) scores ->
  residual_table (labels (residual_data d scores)).
Proof. exact (fun H => residual_data_entries P H nt d scores). Qed.
Print Assumptions C79_residuals_of_moderate_scores.

(** If at some iteration every training row that shares a leaf with [x] has residual zero for class [j], the score
    of class [j] at [x] is NaN then and ever after, and [j] is not answered if any other score is above minus infinity. *)
Theorem C79_learned_class_becomes_nan (P : platform) (nc nt : nat) (d : @dataset (f64_ops P)) (cfg : @tree_config (f64_ops P)) (n : nat) (lr : F)
    (m : multi_class_boost_model) (k : nat) (t : tree_node grad_boost_leaf) (scores : list (list F)) (x : list F) (j : nat) :
  wf_dataset nc nt d -> (Z.of_nat nt <= 2 ^ 40)%Z -> multi_class_boost_train d cfg n lr = Ok m -> (k < n)%nat ->
  nth_error (m_trees m) k = Some t -> mapM (multi_class_boost_raw (first_trees k m)) (feature_rows d) = Ok scores ->
  (nc <= length x)%nat -> (j < nt)%nat ->
  (forall row y v, In (row, y) (samples_like x t (residual_data d scores)) -> nth_error y j = Some v -> is_finite (v : f64) = true /\ B2R v = 0) ->
  exists s p c, multi_class_boost_raw m x = Ok s /\ nth_error s j = Some (B754_nan : f64) /\
    multi_class_boost_predict m x = Ok p /\ one_hot nt (N.of_nat c) p /\
    ((exists v, In v s /\ fltb fninf v = true) -> c <> j).
Proof. exact (nan_score P nc nt d cfg n lr m k t scores x j). Qed.
Print Assumptions C79_learned_class_becomes_nan.

(** Two rows, one of each class: some learning rate gives training accuracy 1 after one iteration and 0 after two,
    and from then on the score of each row's own class is NaN. *)
Theorem C79_training_accuracy_falls_from_1_to_0 (P : platform) :
  accurate_exp P ->
  let zero : f64 := B754_zero false in
  let one : f64 := Bone in
  let d := @mkDS (f64_ops P) [[zero]; [one]] [[one; zero]; [zero; one]] [[zero; one]] in
  exists lr : f64, is_finite lr = true /\ 31 < B2R lr < 61 /\
    forall cfg, standard cfg -> tc_number_of_classes cfg = 2%N -> (1 <= tc_max_levels cfg)%N ->
      (exists m r, multi_class_boost_train d cfg 1 lr = Ok m /\ multi_class_boost_score m d = Ok r /\ B2R (r : f64) = 1) /\
      (exists m r, multi_class_boost_train d cfg 2 lr = Ok m /\ multi_class_boost_score m d = Ok r /\ is_finite (r : f64) = true /\ B2R (r : f64) = 0) /\
      forall n m, (2 <= n)%nat -> multi_class_boost_train d cfg n lr = Ok m ->
        (exists s, multi_class_boost_raw m [zero] = Ok s /\ nth_error s 0 = Some (B754_nan : f64)) /\
        (exists s, multi_class_boost_raw m [one] = Ok s /\ nth_error s 1 = Some (B754_nan : f64)).
Proof. exact (collapse_exists P). Qed.
Print Assumptions C79_training_accuracy_falls_from_1_to_0.

(** Three rows: the last one's leaf has output NaN for the class it has learned. *)
Example C79_example :
  @wf_dataset (f64_ops taylor_platform) 1 2 leftovers /\ residual_table (labels leftovers) /\
  (t <- grad_boost_tree_new leftovers leftovers_cfg (leaf_output_calculator_new MultiClassClassification);;
   Ok (map (fun r => match find_leaf_node_for_data r t with Ok (mkGL (Some [x; y])) => Some (is_finite (x : f64), is_nan (x : f64), is_finite (y : f64)) | _ => None end)
        [[n64 1]; [n64 5]])) = Ok [Some (true, false, true); Some (false, true, true)].
Proof. split; [check_wf|]. split; [exact leftovers_table|]. vm_compute. reflexivity. Qed.

(** The collapsing run, on a platform with a correctly rounded exponential. *)
Example C79_example_run :
  accurate_exp rounded_platform /\ @standard (f64_ops rounded_platform) collapse_cfg /\
  exists (m : @multi_class_boost_model (f64_ops rounded_platform)) t scores,
    multi_class_boost_train (pair_run rounded_platform) collapse_cfg 2 rate = Ok m /\ nth_error (m_trees m) 1 = Some t /\
    mapM (multi_class_boost_raw (first_trees 1 m)) (feature_rows (pair_run rounded_platform)) = Ok scores /\
    samples_like [(B754_zero false : f64) : @F (f64_ops rounded_platform)] t (residual_data (pair_run rounded_platform) scores) <> [] /\
    (forall row y v, In (row, y) (samples_like [(B754_zero false : f64) : @F (f64_ops rounded_platform)] t (residual_data (pair_run rounded_platform) scores)) ->
       nth_error y 0 = Some v -> is_finite (v : f64) = true /\ B2R v = 0).
Proof. exact (conj (proj1 rounded_accurate) (conj eq_refl collapse_case)). Qed.

(* ------------------------------------------------------------------ *)
(** ** C80 *)

(** A finite entry differs from the exact leaf output [(K-1)/K * sum r / sum |r| (1 - |r|)] by at most
    [2^-49 * (n + 1) * sum |r| / sum |r| (1 - |r|)] for the [n] residuals [r] of its class in the leaf. *)
Theorem C80_leaf_output_error (P : platform) (nc nt : nat) (d : @dataset (f64_ops P)) (cfg : @tree_config (f64_ops P))
    (t : tree_node grad_boost_leaf) (row : list F) :
  wf_dataset nc nt d -> (2 <= nt)%nat -> (Z.of_nat nt <= 2 ^ 40)%Z -> (Z.of_nat (length (labels d)) <= 2 ^ 40)%Z -> residual_table (labels d) ->
  grad_boost_tree_new d cfg (leaf_output_calculator_new MultiClassClassification) = Ok t -> (nc <= length row)%nat ->
  exists o, find_leaf_node_for_data row t = Ok (mkGL (Some o)) /\ length o = nt /\
    let group := map (map B2R) (map snd (samples_like row t d)) in
    forall j v, nth_error o j = Some v -> is_finite (v : f64) = true ->
      Rabs (B2R v - nth j (class_output nt group) 0) <=
      bpow radix2 (-49) * INR (length group + 1) * (Rsum (map Rabs (target j group)) / curvature (target j group)).
Proof. exact (leaf_entry_error P nc nt d cfg t row). Qed.
Print Assumptions C80_leaf_output_error.

(** Two rows share the first leaf; both outputs are finite there. *)
Example C80_example :
  @wf_dataset (f64_ops taylor_platform) 1 2 leftovers /\ residual_table (labels leftovers) /\
  (t <- grad_boost_tree_new leftovers leftovers_cfg (leaf_output_calculator_new MultiClassClassification);;
   Ok (length (samples_like [n64 1 : @F (f64_ops taylor_platform)] t leftovers),
       match find_leaf_node_for_data [n64 1 : @F (f64_ops taylor_platform)] t with Ok (mkGL (Some o)) => map (fun x : f64 => is_finite x) o | _ => [] end)) = Ok (2%nat, [true; true]).
Proof. split; [check_wf|]. split; [exact leftovers_table|]. vm_compute. reflexivity. Qed.
