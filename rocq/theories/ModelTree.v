(** Model of the crate [multi-target-decision-tree] (/repo/multi-target-decision-tree/src). *)
From Verif Require Import Base Num ModelCommon.

Section Tree.
Context {O : NumOps}.

(* ------------------------------------------------------------------ *)
(** ** utils/calculations/calculations.rs *)

(** calculations.rs:2-6 *)
Record label_metrics := mkLM {
  lm_sum : list F;
  lm_sumsq : list F;
  lm_mean : list F }.

(** calculations.rs:8-27 *)
Definition calculate_loss_vector (left_variance right_variance : list F) (left_size right_size : F)
  : res (list F) :=
  let total_size := fadd left_size right_size in
  let left_weight := fdiv left_size total_size in
  let right_weight := fdiv right_size total_size in
  if length left_variance =? length right_variance
  then Ok (map (fun p => fadd (fmul left_weight (fst p)) (fmul right_weight (snd p)))
               (combine left_variance right_variance))
  else Panic.

(** calculations.rs:46-49 *)
Definition calculate_variance (mean_squared square_sum number_of_labels : F) : F :=
  let numerator := fsub square_sum (fmul number_of_labels mean_squared) in
  fdiv numerator number_of_labels.

(** calculations.rs:29-44 *)
Definition calculate_variance_vector (m : label_metrics) (number_of_labels : F)
    (number_of_targets : nat) : res (list F) :=
  for_range number_of_targets (fun v i =>
    mean <- idx (lm_mean m) i;;
    square_sum <- idx (lm_sumsq m) i;;
    let mean_squared := fmul mean mean in
    upd v i (calculate_variance mean_squared square_sum number_of_labels))
  (repeat f0 number_of_targets).

(** calculations.rs:100-110 (and the identical 85-98 for label references) *)
Definition get_label_sum_vectors (lbls : list (list F)) (number_of_targets : nat)
  : res (list F * list F) :=
  foldM (fun acc label_vector =>
    foldM (fun acc ix =>
      let '(i, label_value) := ix in
      s <- idx (fst acc) i;;
      sums <- upd (fst acc) i (fadd s label_value);;
      q <- idx (snd acc) i;;
      sumsqs <- upd (snd acc) i (fadd q (fmul label_value label_value));;
      Ok (sums, sumsqs)) (enumerate label_vector) acc)
  lbls (repeat f0 number_of_targets, repeat f0 number_of_targets).

(** calculations.rs:112-122 *)
Definition get_mean_of_labels_vector (number_of_labels : F) (number_of_targets : nat)
    (sum_of_labels : list F) : res (list F) :=
  foldM (fun mean ix =>
    let '(i, s) := ix in upd mean i (fdiv s number_of_labels))
  (enumerate sum_of_labels) (repeat f0 number_of_targets).

(** calculations.rs:51-66 (and the identical 68-83 for label references) *)
Definition get_multi_target_label_metrics (lbls : list (list F)) (number_of_targets : nat)
  : res label_metrics :=
  '(sums, sumsqs) <- get_label_sum_vectors lbls number_of_targets;;
  mean <- get_mean_of_labels_vector (f_of_nat (length lbls)) number_of_targets sums;;
  Ok (mkLM sums sumsqs mean).

(* ------------------------------------------------------------------ *)
(** ** split_finders/threshold_finders/threshold_finder_variance.rs *)

(** threshold_finder_variance.rs:7-10 *)
Record tracker := mkTr { tr_n : F; tr_m : label_metrics }.

(** threshold_finder_variance.rs:166-180 *)
Definition update_left_value_tracker (t : tracker) (label_vector : list F) (number_of_targets : nat)
  : res tracker :=
  let n := fadd (tr_n t) f1 in
  m <- for_range number_of_targets (fun m i =>
         label_value <- idx label_vector i;;
         q <- idx (lm_sumsq m) i;;
         sumsq <- upd (lm_sumsq m) i (fadd q (fmul label_value label_value));;
         s <- idx (lm_sum m) i;;
         sum <- upd (lm_sum m) i (fadd s label_value);;
         s' <- idx sum i;;
         mean <- upd (lm_mean m) i (fdiv s' n);;
         Ok (mkLM sum sumsq mean)) (tr_m t);;
  Ok (mkTr n m).

(** threshold_finder_variance.rs:182-197 *)
Definition update_right_value_tracker (t : tracker) (label_vector : list F) (number_of_targets : nat)
  : res tracker :=
  let n := fsub (tr_n t) f1 in
  m <- for_range number_of_targets (fun m i =>
         label_value <- idx label_vector i;;
         q <- idx (lm_sumsq m) i;;
         sumsq <- upd (lm_sumsq m) i (fsub q (fmul label_value label_value));;
         s <- idx (lm_sum m) i;;
         sum <- upd (lm_sum m) i (fsub s label_value);;
         s' <- idx sum i;;
         mean <- upd (lm_mean m) i (fdiv s' n);;
         Ok (mkLM sum sumsq mean)) (tr_m t);;
  Ok (mkTr n m).

(** Loop state of threshold_finder_variance.rs:50-85 *)
Record scan_state := mkScan { sc_best : best_threshold; sc_left : tracker; sc_right : tracker }.

(** Loop body, threshold_finder_variance.rs:51-84 (identical at 128-161). [previous_feature_val] is
    bound once, before the loop, and never updated. *)
Definition scan_step (lbls : list (list F)) (previous_feature_val : F) (number_of_targets : nat)
    (s : scan_state) (tuple : F * nat) : res scan_state :=
  let feature_value := fst tuple in
  best <-
    (if negb (feqb feature_value previous_feature_val) then
       left_variance <- calculate_variance_vector (tr_m (sc_left s)) (tr_n (sc_left s)) number_of_targets;;
       right_variance <- calculate_variance_vector (tr_m (sc_right s)) (tr_n (sc_right s)) number_of_targets;;
       split_variance <- calculate_loss_vector left_variance right_variance
                           (tr_n (sc_left s)) (tr_n (sc_right s));;
       let split_variance_sum := fsum split_variance in
       if fltb split_variance_sum (bt_loss (sc_best s))
       then Ok (mkBT split_variance_sum feature_value)
       else Ok (sc_best s)
     else Ok (sc_best s));;
  label_vector <- idx lbls (snd tuple);;
  left <- update_left_value_tracker (sc_left s) label_vector number_of_targets;;
  right <- update_right_value_tracker (sc_right s) label_vector number_of_targets;;
  Ok (mkScan best left right).

(** threshold_finder_variance.rs:89-164 (and 19-86 after the sort): initial trackers, then the loop. *)
Definition determine_best_threshold_new (number_of_labels : nat) (all_labels : list (list F))
    (feature_column : list (F * nat)) (total : label_metrics) (number_of_targets : nat)
  : res best_threshold :=
  let zeros := repeat f0 number_of_targets in
  first <- idx feature_column 0;;
  s <- foldM (scan_step all_labels (fst first) number_of_targets) feature_column
         (mkScan (mkBT finf f0)
                 (mkTr f0 (mkLM zeros zeros zeros))
                 (mkTr (f_of_nat number_of_labels) total));;
  Ok (sc_best s).

(** threshold_finder_variance.rs:12-87: sorts the column, then the same loop. *)
Definition determine_best_threshold (number_of_labels : nat) (lbls : list (list F))
    (feature_column : list F) (total : label_metrics) (number_of_targets : nat)
  : res best_threshold :=
  sorted_feature_data <- get_sorted_feature_tuple_vector feature_column;;
  determine_best_threshold_new number_of_labels lbls sorted_feature_data total number_of_targets.

(* ------------------------------------------------------------------ *)
(** ** split_finders/split_finder_variance.rs *)

(** split_finder_variance.rs:113-124 *)
Definition get_total_variance_sum (total : label_metrics) (number_of_labels : F)
    (number_of_targets : nat) : res F :=
  v <- calculate_variance_vector total number_of_labels number_of_targets;;
  Ok (fsum v).

(** Column loop, split_finder_variance.rs:45-58 and 97-110 *)
Definition select_best_column (total_variance_sum : F) (number_of_cols : nat)
    (result_vector : list best_threshold) : res best_split :=
  for_range number_of_cols (fun b i =>
    r <- idx result_vector i;;
    let information_gain := fsub total_variance_sum (bt_loss r) in
    if fltb (bs_gain b) information_gain
    then Ok (mkBS information_gain (Question (as_u32 i) (bt_threshold r)))
    else Ok b)
  (mkBS f0 (Question 0 f0)).

(** split_finder_variance.rs:13-59. The rayon map is [mapM], see ModelPar.v for schedules. *)
Definition find_best_split (data : dataset) (number_of_targets : N) : res best_split :=
  let number_of_labels := length (labels data) in
  let k := N.to_nat number_of_targets in
  total <- get_multi_target_label_metrics (labels data) k;;
  total_variance_sum <- get_total_variance_sum total (f_of_nat number_of_labels) k;;
  row0 <- idx (feature_rows data) 0;;
  let number_of_cols := length row0 in
  result_vector <- mapM (fun feature_column =>
      determine_best_threshold number_of_labels (labels data) feature_column total k)
    (feature_columns data);;
  if length result_vector =? number_of_cols
  then select_best_column total_variance_sum number_of_cols result_vector
  else Panic.

(** split_finder_variance.rs:61-111 *)
Definition find_best_split_new_partition (data : sorted_dataset) (all_labels : list (list F))
    (number_of_targets : N) (number_of_cols : nat) : res best_split :=
  let number_of_labels_in_subset := length (s_labels data) in
  let k := N.to_nat number_of_targets in
  total <- get_multi_target_label_metrics (s_labels data) k;;
  total_variance_sum <- get_total_variance_sum total (f_of_nat number_of_labels_in_subset) k;;
  result_vector <- mapM (fun feature_column =>
      determine_best_threshold_new number_of_labels_in_subset all_labels feature_column total k)
    (s_columns data);;
  if length result_vector =? number_of_cols
  then select_best_column total_variance_sum number_of_cols result_vector
  else Panic.

(* ------------------------------------------------------------------ *)
(** ** utils/data_partitioner.rs *)

(** data_partitioner.rs:14-27: the zipped loop; accumulates (true rows, true labels, false rows, false labels). *)
Definition partition_rows (q : question) (rows lbls : list (list F))
  : res ((list (list F) * list (list F)) * (list (list F) * list (list F))) :=
  foldM (fun acc p =>
    let '((tr, tl), (fr, fl)) := acc in
    b <- solve q (fst p);;
    if (b : bool) then Ok ((tr ++ [fst p], tl ++ [snd p]), (fr, fl))
    else Ok ((tr, tl), (fr ++ [fst p], fl ++ [snd p])))
  (combine rows lbls) (([], []), ([], [])).

(** data_partitioner.rs:5-45; returns (false_data, true_data). *)
Definition partition (data : dataset) (q : question) : res (dataset * dataset) :=
  '((true_rows, true_labels), (false_rows, false_labels)) <-
     partition_rows q (feature_rows data) (labels data);;
  false_columns <- create_feature_columns false_rows;;
  true_columns <- create_feature_columns true_rows;;
  Ok (mkDS false_rows false_labels false_columns, mkDS true_rows true_labels true_columns).

(* ------------------------------------------------------------------ *)
(** ** tree/leaf.rs, tree/node.rs *)

(** leaf.rs:14-16 *)
Record regression_leaf := mkRL { rl_data : option dataset }.
(** leaf.rs:19-21 *)
Record regression_leaf_np := mkRLN { rln_data : option sorted_dataset }.
(** leaf.rs:24-26 *)
Record grad_boost_leaf := mkGL { gl_output : option (list F) }.
(** leaf.rs:29-32 *)
Record amg_leaf := mkAL { al_max : option F; al_class : option nat }.

(** node.rs:6-11 *)
Inductive tree_node (L : Type) : Type :=
| TreeNode (nd_question : question) (nd_true nd_false : option (tree_node L)) (nd_leaf : option L).

Definition nd_question {L} (n : tree_node L) : question := match n with TreeNode _ q _ _ _ => q end.
Definition nd_true {L} (n : tree_node L) : option (tree_node L) := match n with TreeNode _ _ t _ _ => t end.
Definition nd_false {L} (n : tree_node L) : option (tree_node L) := match n with TreeNode _ _ _ f _ => f end.
Definition nd_leaf {L} (n : tree_node L) : option L := match n with TreeNode _ _ _ _ l => l end.

(** node.rs:14-25 *)
Definition node_new {L} (q : question) (true_branch false_branch : tree_node L) : tree_node L :=
  TreeNode L q (Some true_branch) (Some false_branch) None.

(** node.rs:27-34 *)
Definition leaf_node {L} (q : question) (leaf : L) : tree_node L :=
  TreeNode L q None None (Some leaf).

(** node.rs:36-38 *)
Definition is_leaf_node {L} (n : tree_node L) : bool :=
  match nd_true n, nd_false n with None, None => true | _, _ => false end.

(* ------------------------------------------------------------------ *)
(** ** split_finders/split_finder.rs, tree/decision_trees.rs *)

(** split_finder.rs:5-7 *)
Inductive split_metric := Variance.

(** split_finder.rs:11-14: the public function pointer (the metric itself is never read). *)
Definition split_finder : Type := dataset -> N -> res best_split.

(** split_finder.rs:17-22 *)
Definition split_finder_new (m : split_metric) : split_finder := find_best_split.

(** decision_trees.rs:13-18 *)
Record tree_config := mkTC {
  tc_split_finder : split_finder;
  tc_use_multi_threading : bool;
  tc_number_of_classes : N;
  tc_max_levels : N }.

(* ------------------------------------------------------------------ *)
(** ** tree/tree_builders/regression_tree_builder.rs *)

(** [gain == 0.0 || current_level == max_levels] *)
Definition stop_here (s : best_split) (current_level max_levels : N) : bool :=
  feqb (bs_gain s) f0 || (current_level =? max_levels)%N.

(** regression_tree_builder.rs:15-39. [fuel] bounds the recursion depth; [new] below supplies enough
    (theorem C17). *)
Fixpoint build_regression_tree (fuel : nat) (data : dataset) (cfg : tree_config) (current_level : N)
  : res (tree_node regression_leaf) :=
  match fuel with
  | 0 => OutOfFuel
  | S fuel' =>
      split_result <- tc_split_finder cfg data (tc_number_of_classes cfg);;
      if stop_here split_result current_level (tc_max_levels cfg) then
        Ok (leaf_node (bs_question split_result) (mkRL (Some data)))
      else
        '(false_data, true_data) <- partition data (bs_question split_result);;
        let left_data := true_data in
        let right_data := false_data in
        let new_level := (current_level + 1)%N in
        left_tree <- build_regression_tree fuel' left_data cfg new_level;;
        right_tree <- build_regression_tree fuel' right_data cfg new_level;;
        Ok (node_new (bs_question split_result) left_tree right_tree)
  end.

(** regression_tree_builder.rs:41-77 *)
Fixpoint build_regression_tree_new_partition (fuel : nat) (data : sorted_dataset)
    (all_labels : list (list F)) (cfg : tree_config) (current_level : N)
  : res (tree_node regression_leaf_np) :=
  match fuel with
  | 0 => OutOfFuel
  | S fuel' =>
      let number_of_cols := length (s_columns data) in
      l0 <- idx (s_labels data) 0;;
      let number_of_targets := as_u32 (length l0) in
      split_result <- find_best_split_new_partition data all_labels number_of_targets number_of_cols;;
      if stop_here split_result current_level (tc_max_levels cfg) then
        Ok (leaf_node (bs_question split_result) (mkRLN (Some data)))
      else
        let split_column := N.to_nat (q_column (bs_question split_result)) in
        let split_value := q_value (bs_question split_result) in
        '(left_data, right_data) <- new_partition data split_column split_value all_labels;;
        let new_level := (current_level + 1)%N in
        left_tree <- build_regression_tree_new_partition fuel' left_data all_labels cfg new_level;;
        right_tree <- build_regression_tree_new_partition fuel' right_data all_labels cfg new_level;;
        Ok (node_new (bs_question split_result) left_tree right_tree)
  end.

(** [rayon::join] of two pure closures, run here as a pair; ModelPar.v gives every interleaving. *)
Definition rayon_join {A B} (oper_a : unit -> res A) (oper_b : unit -> res B) : res (A * B) :=
  a <- oper_a tt;; b <- oper_b tt;; Ok (a, b).

(** regression_tree_builder.rs:79-117 *)
Fixpoint build_regression_tree_using_multiple_threads (fuel : nat) (data : dataset)
    (cfg : tree_config) (current_level : N) : res (tree_node regression_leaf) :=
  match fuel with
  | 0 => OutOfFuel
  | S fuel' =>
      split_result <- tc_split_finder cfg data (tc_number_of_classes cfg);;
      if stop_here split_result current_level (tc_max_levels cfg) then
        Ok (leaf_node (bs_question split_result) (mkRL (Some data)))
      else
        '(false_data, true_data) <- partition data (bs_question split_result);;
        let left_data := true_data in
        let right_data := false_data in
        let new_level := (current_level + 1)%N in
        '(left_tree, right_tree) <-
          rayon_join
            (fun _ => build_regression_tree_using_multiple_threads fuel' left_data cfg new_level)
            (fun _ => build_regression_tree_using_multiple_threads fuel' right_data cfg new_level);;
        Ok (node_new (bs_question split_result) left_tree right_tree)
  end.

(** Recursion budget: every recursive call has fewer rows (theorem C17). *)
Definition fuel_for (data : dataset) : nat := S (length (feature_rows data)).

(** decision_trees.rs:31-42 *)
Definition regression_tree_new (data : dataset) (cfg : tree_config) : res (tree_node regression_leaf) :=
  if tc_use_multi_threading cfg
  then build_regression_tree_using_multiple_threads (fuel_for data) data cfg 0
  else build_regression_tree (fuel_for data) data cfg 0.

(** decision_trees.rs:46-56 *)
Definition regression_tree_new_partition_new (data : sorted_dataset) (cfg : tree_config)
  : res (tree_node regression_leaf_np) :=
  let all_labels := s_labels data in
  build_regression_tree_new_partition (S (length (s_labels data))) data all_labels cfg 0.

(* ------------------------------------------------------------------ *)
(** ** tree/tree_builders/grad_boost/grad_boost_leaf_output.rs *)

(** grad_boost_leaf_output.rs:10-13 *)
Inductive leaf_output_type := Regression | MultiClassClassification.

(** grad_boost_leaf_output.rs:34-37 *)
Definition calculate_leaf_output_squared_loss (leaf_data : dataset) : res (list F) :=
  calculate_average_f64_vector (labels leaf_data).

(** grad_boost_leaf_output.rs:49-63 *)
Definition calculate_denominator_term_for_leaf_output (vv : list (list F)) : res (list F) :=
  first <- idx vv 0;;
  foldM (fun sum_vector inner_vector =>
    let term := map (fun element =>
      let element_abs := fabs element in
      fmul element_abs (fsub f1 element_abs)) inner_vector in
    add_f64_slices_as_vector sum_vector term)
  vv (repeat f0 (length first)).

(** grad_boost_leaf_output.rs:39-47 *)
Definition calculate_leaf_output_multi_class_loss (leaf_data : dataset) : res (list F) :=
  numerator <- sum_of_f64_vectors (labels leaf_data);;
  denominator <- calculate_denominator_term_for_leaf_output (labels leaf_data);;
  numerator_over_denominator <- divide_f64_slices_as_vector numerator denominator;;
  l0 <- idx (labels leaf_data) 0;;
  let number_of_classes := f_of_nat (length l0) in
  let scalar := fdiv (fsub number_of_classes f1) number_of_classes in
  Ok (multiply_f64_slice_by_f64_scalar scalar numerator_over_denominator).

(** grad_boost_leaf_output.rs:17-32: the public function pointer, chosen by [new]. *)
Definition leaf_output_calculator : Type := dataset -> res (list F).
Definition leaf_output_calculator_new (t : leaf_output_type) : leaf_output_calculator :=
  match t with
  | Regression => calculate_leaf_output_squared_loss
  | MultiClassClassification => calculate_leaf_output_multi_class_loss
  end.

(* ------------------------------------------------------------------ *)
(** ** tree/tree_builders/grad_boost/grad_boost_tree_builder.rs *)

(** grad_boost_tree_builder.rs:8-46 *)
Fixpoint build_grad_boost_regression_tree (fuel : nat) (data : dataset) (cfg : tree_config)
    (calc : leaf_output_calculator) (current_level : N) : res (tree_node grad_boost_leaf) :=
  match fuel with
  | 0 => OutOfFuel
  | S fuel' =>
      split_result <- tc_split_finder cfg data (tc_number_of_classes cfg);;
      if stop_here split_result current_level (tc_max_levels cfg) then
        leaf_output <- calc data;;
        Ok (leaf_node (bs_question split_result) (mkGL (Some leaf_output)))
      else
        '(false_data, true_data) <- partition data (bs_question split_result);;
        let left_data := true_data in
        let right_data := false_data in
        let new_level := (current_level + 1)%N in
        left_tree <- build_grad_boost_regression_tree fuel' left_data cfg calc new_level;;
        right_tree <- build_grad_boost_regression_tree fuel' right_data cfg calc new_level;;
        Ok (node_new (bs_question split_result) left_tree right_tree)
  end.

(** grad_boost_tree_builder.rs:48-92 *)
Fixpoint build_grad_boost_regression_tree_using_multiple_threads (fuel : nat) (data : dataset)
    (cfg : tree_config) (calc : leaf_output_calculator) (current_level : N)
  : res (tree_node grad_boost_leaf) :=
  match fuel with
  | 0 => OutOfFuel
  | S fuel' =>
      split_result <- tc_split_finder cfg data (tc_number_of_classes cfg);;
      if stop_here split_result current_level (tc_max_levels cfg) then
        leaf_output <- calc data;;
        Ok (leaf_node (bs_question split_result) (mkGL (Some leaf_output)))
      else
        '(false_data, true_data) <- partition data (bs_question split_result);;
        let left_data := true_data in
        let right_data := false_data in
        let new_level := (current_level + 1)%N in
        '(left_tree, right_tree) <-
          rayon_join
            (fun _ => build_grad_boost_regression_tree_using_multiple_threads fuel' left_data cfg calc new_level)
            (fun _ => build_grad_boost_regression_tree_using_multiple_threads fuel' right_data cfg calc new_level);;
        Ok (node_new (bs_question split_result) left_tree right_tree)
  end.

(** grad_boost_decision_trees.rs:24-47 *)
Definition grad_boost_tree_new (data : dataset) (cfg : tree_config) (calc : leaf_output_calculator)
  : res (tree_node grad_boost_leaf) :=
  if tc_use_multi_threading cfg
  then build_grad_boost_regression_tree_using_multiple_threads (fuel_for data) data cfg calc 0
  else build_grad_boost_regression_tree (fuel_for data) data cfg calc 0.

(* ------------------------------------------------------------------ *)
(** ** tree/tree_builders/grad_boost/approximate_grad_boost_tree_builder.rs *)

(** approximate_grad_boost_tree_builder.rs:97-107; returns (max_seen, max_index). *)
Definition find_max_value_and_index_from_vector (numbers : list F) : F * nat :=
  fold_left (fun acc ie =>
    let '(max_seen, max_index) := acc in
    let '(index, element) := ie in
    if fltb max_seen element then (element, index) else (max_seen, max_index))
  (enumerate numbers) (fninf, 0).

(** approximate_grad_boost_tree_builder.rs:7-47 *)
Fixpoint build_approximate_grad_boost_regression_tree (fuel : nat) (data : dataset)
    (cfg : tree_config) (calc : leaf_output_calculator) (current_level : N)
  : res (tree_node amg_leaf) :=
  match fuel with
  | 0 => OutOfFuel
  | S fuel' =>
      split_result <- tc_split_finder cfg data (tc_number_of_classes cfg);;
      if stop_here split_result current_level (tc_max_levels cfg) then
        leaf_output <- calc data;;
        let '(max_value, class) := find_max_value_and_index_from_vector leaf_output in
        Ok (leaf_node (bs_question split_result) (mkAL (Some max_value) (Some class)))
      else
        '(false_data, true_data) <- partition data (bs_question split_result);;
        let left_data := true_data in
        let right_data := false_data in
        let new_level := (current_level + 1)%N in
        left_tree <- build_approximate_grad_boost_regression_tree fuel' left_data cfg calc new_level;;
        right_tree <- build_approximate_grad_boost_regression_tree fuel' right_data cfg calc new_level;;
        Ok (node_new (bs_question split_result) left_tree right_tree)
  end.

(** approximate_grad_boost_tree_builder.rs:49-95 *)
Fixpoint build_approximate_grad_boost_regression_tree_using_multiple_threads (fuel : nat)
    (data : dataset) (cfg : tree_config) (calc : leaf_output_calculator) (current_level : N)
  : res (tree_node amg_leaf) :=
  match fuel with
  | 0 => OutOfFuel
  | S fuel' =>
      split_result <- tc_split_finder cfg data (tc_number_of_classes cfg);;
      if stop_here split_result current_level (tc_max_levels cfg) then
        leaf_output <- calc data;;
        let '(max_value, class) := find_max_value_and_index_from_vector leaf_output in
        Ok (leaf_node (bs_question split_result) (mkAL (Some max_value) (Some class)))
      else
        '(false_data, true_data) <- partition data (bs_question split_result);;
        let left_data := true_data in
        let right_data := false_data in
        let new_level := (current_level + 1)%N in
        '(left_tree, right_tree) <-
          rayon_join
            (fun _ => build_approximate_grad_boost_regression_tree_using_multiple_threads fuel' left_data cfg calc new_level)
            (fun _ => build_approximate_grad_boost_regression_tree_using_multiple_threads fuel' right_data cfg calc new_level);;
        Ok (node_new (bs_question split_result) left_tree right_tree)
  end.

(** grad_boost_decision_trees.rs:57-80 *)
Definition amg_boost_tree_new (data : dataset) (cfg : tree_config) (calc : leaf_output_calculator)
  : res (tree_node amg_leaf) :=
  if tc_use_multi_threading cfg
  then build_approximate_grad_boost_regression_tree_using_multiple_threads (fuel_for data) data cfg calc 0
  else build_approximate_grad_boost_regression_tree (fuel_for data) data cfg calc 0.

(* ------------------------------------------------------------------ *)
(** ** utils/scorer.rs, utils/class_counter.rs *)

(** scorer.rs:140-152 (identical to multi-target-grad-boost/src/tree_traverse.rs:3-15) *)
Fixpoint find_leaf_node_for_data {L} (feature_row : list F) (n : tree_node L) : res L :=
  match n with
  | TreeNode _ q tb fb lf =>
      if negb (is_leaf_node n) then
        b <- solve q feature_row;;
        if (b : bool) then
          match tb with Some t => find_leaf_node_for_data feature_row t | None => Panic end
        else
          match fb with Some f => find_leaf_node_for_data feature_row f | None => Panic end
      else unwrap lf
  end.

(** scorer.rs:49-62, class_counter.rs:1-12. Simplification: the [u32] counters are unbounded. *)
Definition get_class_counts_multi_target (lbls : list (list F)) (number_of_classes : nat)
  : res (list N) :=
  foldM (fun counts label_vector =>
    for_range (length label_vector) (fun counts i =>
      x <- idx label_vector i;;
      if feqb x f1 then
        c <- idx counts i;; upd counts i (c + 1)%N
      else Ok counts) counts)
  lbls (repeat 0%N number_of_classes).

(** scorer.rs:34-43: (max, max_class, index) after the loop. *)
Definition argmax_counts (counts : list N) : N * F * F :=
  fold_left (fun acc count =>
    let '(max, max_class, index) := acc in
    if (max <? count)%N then (count, index, fadd index f1)
    else (max, max_class, fadd index f1))
  counts (0%N, f0, f0).

(** scorer.rs:29-47 *)
Definition predict_class (feature_row : list F) (n : tree_node regression_leaf) : res (list F) :=
  leaf <- find_leaf_node_for_data feature_row n;;
  d <- unwrap (rl_data leaf);;
  l0 <- idx (labels d) 0;;
  let number_of_classes := length l0 in
  counts <- get_class_counts_multi_target (labels d) number_of_classes;;
  let '(_, max_class, _) := argmax_counts counts in
  updN (repeat f0 number_of_classes) (f_to_usize max_class) f1.

(** [Vec<f64> == Vec<f64>] *)
Fixpoint vec_eqb (a b : list F) : bool :=
  match a, b with
  | [], [] => true
  | x :: s, y :: t => feqb x y && vec_eqb s t
  | _, _ => false
  end.

(** scorer.rs:11-27 *)
Definition calculate_accuracy (test_data : dataset) (tree_root : tree_node regression_leaf) : res F :=
  accuracy <- for_range (length (feature_rows test_data)) (fun accuracy i =>
    row <- idx (feature_rows test_data) i;;
    prediction <- predict_class row tree_root;;
    actual <- idx (labels test_data) i;;
    Ok (if vec_eqb prediction actual then fadd accuracy f1 else accuracy)) f0;;
  Ok (fdiv accuracy (f_of_nat (length (feature_rows test_data)))).

(** scorer.rs:127-137 *)
Definition mean_sum_of_squared_differences_between_vectors (prediction actual : list F) : res F :=
  s <- for_range (length prediction) (fun s i =>
    p <- idx prediction i;;
    a <- idx actual i;;
    Ok (fadd s (fsqr (fsub p a)))) f0;;
  Ok (fdiv s (f_of_nat (length prediction))).

(** scorer.rs:112-125 (identical loop at 91-105) *)
Definition calculate_average_label_vector (lbls : list (list F)) : res (list F) :=
  l0 <- idx lbls 0;;
  let label_length := length l0 in
  avg <- for_range (length lbls) (fun avg i =>
           for_range label_length (fun avg j =>
             a <- idx avg j;;
             row <- idx lbls i;;
             x <- idx row j;;
             upd avg j (fadd a x)) avg) (repeat f0 label_length);;
  for_range label_length (fun avg j =>
    a <- idx avg j;;
    upd avg j (fdiv a (f_of_nat (length lbls)))) avg.

(** scorer.rs:70-82 *)
Definition calculate_overall_mean_squared_error (test_data : dataset)
    (tree_root : tree_node regression_leaf) : res F :=
  total_error <- for_range (length (feature_rows test_data)) (fun total_error i =>
    row <- idx (feature_rows test_data) i;;
    leaf <- find_leaf_node_for_data row tree_root;;
    d <- unwrap (rl_data leaf);;
    prediction <- calculate_average_label_vector (labels d);;
    actual <- idx (labels test_data) i;;
    e <- mean_sum_of_squared_differences_between_vectors prediction actual;;
    Ok (fadd total_error e)) f0;;
  Ok (fdiv total_error (f_of_nat (length (feature_rows test_data)))).

(** scorer.rs:84-110 *)
Definition calculate_overall_mean_squared_error_new_partition (test_data : dataset)
    (tree_root : tree_node regression_leaf_np) : res F :=
  total_error <- for_range (length (feature_rows test_data)) (fun total_error i =>
    row <- idx (feature_rows test_data) i;;
    leaf <- find_leaf_node_for_data row tree_root;;
    d <- unwrap (rln_data leaf);;
    prediction <- calculate_average_label_vector (s_labels d);;
    actual <- idx (labels test_data) i;;
    e <- mean_sum_of_squared_differences_between_vectors prediction actual;;
    Ok (fadd total_error e)) f0;;
  Ok (fdiv total_error (f_of_nat (length (feature_rows test_data)))).

End Tree.
