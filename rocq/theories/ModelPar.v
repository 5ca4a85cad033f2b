(** The parallel constructs of the code, and every program of the crates that uses them.

    The code uses rayon in two forms only: [rayon::join] of two closures and
    [par_iter().map(f).collect()]. The closures borrow immutable data and return fresh values, so the
    only shared state is the slots the results are written to. A program is a tree of such constructs
    around sequential sections; [step] lets any unfinished piece of it advance, so the runs of a
    program are all the interleavings any thread pool could produce, whatever its size. *)
From Verif Require Import Base Num ModelCommon ModelTree ModelBoost.

(** One element of a parallel map: not begun, being worked on, or finished with its outcome. *)
Inductive slot (X B : Type) : Type :=
| Waiting (x : X)
| Running (x : X)
| Finished (r : res B).
Arguments Waiting {X B}. Arguments Running {X B}. Arguments Finished {X B}.

(** A parallel computation in progress, with a result of the given type. *)
Inductive prog : Type -> Type :=
| Ret : forall {A}, res A -> prog A                                                     (* over *)
| Seq : forall {A B}, res B -> (B -> prog A) -> prog A                 (* a sequential section, then *)
| Fork : forall {A B C}, prog B -> prog C -> (B -> C -> prog A) -> prog A      (* rayon::join, then *)
| ParMap : forall {A X B}, (X -> res B) -> list (slot X B) -> (list B -> prog A) -> prog A.
                                                       (* par_iter().map(f).collect(), then *)

Definition outcome {A} (p : prog A) : option (res A) :=
  match p with Ret r => Some r | _ => None end.

(** One step of one worker.
    - A sequential section is executed; if it panics the program panics.
    - [join]: either side advances. When both sides are over, the program goes on with the two
      results, or panics if a side panicked (rayon waits for the other side before unwinding).
    - map: a worker takes an element up, or finishes the one it is working on. When every slot holds a
      result they are collected in slot order. When an element has panicked and no worker is busy the
      whole map panics, with or without having begun the remaining elements. *)
Fixpoint step {A} (p : prog A) : prog A -> Prop :=
  match p in prog A return prog A -> Prop with
  | Ret _ => fun _ => False
  | Seq m k => fun p' =>
      match m with Ok b => p' = k b | Panic => p' = Ret Panic | OutOfFuel => p' = Ret OutOfFuel end
  | Fork l r k => fun p' =>
      (exists l', step l l' /\ p' = Fork l' r k) \/
      (exists r', step r r' /\ p' = Fork l r' k) \/
      (exists b c, outcome l = Some (Ok b) /\ outcome r = Some (Ok c) /\ p' = k b c) \/
      (outcome l <> None /\ outcome r <> None /\ (outcome l = Some Panic \/ outcome r = Some Panic) /\
       p' = Ret Panic)
  | ParMap f s k => fun p' =>
      (exists s1 x s2, s = s1 ++ Waiting x :: s2 /\ p' = ParMap f (s1 ++ Running x :: s2) k) \/
      (exists s1 x s2, s = s1 ++ Running x :: s2 /\ p' = ParMap f (s1 ++ Finished (f x) :: s2) k) \/
      (exists bs, s = map (fun b => Finished (Ok b)) bs /\ p' = k bs) \/
      (In (Finished Panic) s /\ (forall x, ~ In (Running x) s) /\ p' = Ret Panic)
  end.

(** Sequential composition of programs. *)
Fixpoint andthen {A B} (p : prog A) : (A -> prog B) -> prog B :=
  match p in prog A return (A -> prog B) -> prog B with
  | Ret r => fun k => Seq r k
  | Seq m f => fun k => Seq m (fun b => andthen (f b) k)
  | Fork l r f => fun k => Fork l r (fun b c => andthen (f b c) k)
  | ParMap f s g => fun k => ParMap f s (fun bs => andthen (g bs) k)
  end.

Notation "x <~ p ;; f" := (andthen p (fun x => f)) (at level 61, p at next level, right associativity).
Notation "' x <~ p ;; f" := (andthen p (fun x => f)) (at level 61, x pattern, p at next level, right associativity).
Notation "x <: m ;; f" := (Seq m (fun x => f)) (at level 61, m at next level, right associativity).
Notation "' x <: m ;; f" := (Seq m (fun x => f)) (at level 61, x pattern, m at next level, right associativity).

(** [l.par_iter().map(f).collect()] *)
Definition par_map {X B} (f : X -> res B) (l : list X) : prog (list B) :=
  ParMap f (map Waiting l) (fun bs => Ret (Ok bs)).

Section Par.
Context {O : NumOps}.

(* ------------------------------------------------------------------ *)
(** ** Split search and partitioning *)

(** split_finder_variance.rs:13-59, the map at 31-43 *)
Definition par_find_best_split (data : dataset) (number_of_targets : N) : prog best_split :=
  let number_of_labels := length (labels data) in
  let k := N.to_nat number_of_targets in
  total <: get_multi_target_label_metrics (labels data) k;;
  total_variance_sum <: get_total_variance_sum total (f_of_nat number_of_labels) k;;
  row0 <: idx (feature_rows data) 0;;
  let number_of_cols := length row0 in
  result_vector <~ par_map (fun feature_column =>
      determine_best_threshold number_of_labels (labels data) feature_column total k)
    (feature_columns data);;
  Ret (if length result_vector =? number_of_cols
       then select_best_column total_variance_sum number_of_cols result_vector
       else Panic).

(** split_finder_variance.rs:61-111, the map at 83-95 *)
Definition par_find_best_split_new_partition (data : sorted_dataset) (all_labels : list (list F))
    (number_of_targets : N) (number_of_cols : nat) : prog best_split :=
  let number_of_labels_in_subset := length (s_labels data) in
  let k := N.to_nat number_of_targets in
  total <: get_multi_target_label_metrics (s_labels data) k;;
  total_variance_sum <: get_total_variance_sum total (f_of_nat number_of_labels_in_subset) k;;
  result_vector <~ par_map (fun feature_column =>
      determine_best_threshold_new number_of_labels_in_subset all_labels feature_column total k)
    (s_columns data);;
  Ret (if length result_vector =? number_of_cols
       then select_best_column total_variance_sum number_of_cols result_vector
       else Panic).

(** data_processor.rs:107-153, the map at 120-135 *)
Definition par_collect_partitioned_feature_columns (d : sorted_dataset) (true_indices : list nat)
  : prog (list (list (F * nat)) * list (list (F * nat))) :=
  pairs <~ par_map (partition_feature_column true_indices) (s_columns d);;
  Ret (Ok (split pairs)).

(** data_processor.rs:26-59 *)
Definition par_new_partition (d : sorted_dataset) (split_column : nat) (split_value : F)
    (all_labels : list (list F)) : prog (sorted_dataset * sorted_dataset) :=
  '(true_indices, false_indices) <:
     collect_indices_for_partitioning d split_column split_value (length all_labels);;
  '(true_labels, false_labels) <:
     collect_partitioned_labels true_indices false_indices all_labels;;
  '(true_columns, false_columns) <~ par_collect_partitioned_feature_columns d true_indices;;
  Ret (Ok (mkSDS true_labels true_columns, mkSDS false_labels false_columns)).

(* ------------------------------------------------------------------ *)
(** ** Tree builders. [fuel] as in ModelTree.v. The split finder is the one [SplitFinder::new] gives. *)

(** regression_tree_builder.rs:15-39 *)
Fixpoint par_build_regression_tree (fuel : nat) (data : dataset) (cfg : tree_config)
    (current_level : N) : prog (tree_node regression_leaf) :=
  match fuel with
  | 0 => Ret OutOfFuel
  | S fuel' =>
      split_result <~ par_find_best_split data (tc_number_of_classes cfg);;
      if stop_here split_result current_level (tc_max_levels cfg) then
        Ret (Ok (leaf_node (bs_question split_result) (mkRL (Some data))))
      else
        '(false_data, true_data) <: partition data (bs_question split_result);;
        let new_level := (current_level + 1)%N in
        left_tree <~ par_build_regression_tree fuel' true_data cfg new_level;;
        right_tree <~ par_build_regression_tree fuel' false_data cfg new_level;;
        Ret (Ok (node_new (bs_question split_result) left_tree right_tree))
  end.

(** regression_tree_builder.rs:79-117, the join at 95-110 *)
Fixpoint par_build_regression_tree_using_multiple_threads (fuel : nat) (data : dataset)
    (cfg : tree_config) (current_level : N) : prog (tree_node regression_leaf) :=
  match fuel with
  | 0 => Ret OutOfFuel
  | S fuel' =>
      split_result <~ par_find_best_split data (tc_number_of_classes cfg);;
      if stop_here split_result current_level (tc_max_levels cfg) then
        Ret (Ok (leaf_node (bs_question split_result) (mkRL (Some data))))
      else
        '(false_data, true_data) <: partition data (bs_question split_result);;
        let new_level := (current_level + 1)%N in
        Fork
          (par_build_regression_tree_using_multiple_threads fuel' true_data cfg new_level)
          (par_build_regression_tree_using_multiple_threads fuel' false_data cfg new_level)
          (fun left_tree right_tree =>
             Ret (Ok (node_new (bs_question split_result) left_tree right_tree)))
  end.

(** decision_trees.rs:31-42 *)
Definition par_regression_tree_new (data : dataset) (cfg : tree_config)
  : prog (tree_node regression_leaf) :=
  if tc_use_multi_threading cfg
  then par_build_regression_tree_using_multiple_threads (fuel_for data) data cfg 0
  else par_build_regression_tree (fuel_for data) data cfg 0.

(** regression_tree_builder.rs:41-77 *)
Fixpoint par_build_regression_tree_new_partition (fuel : nat) (data : sorted_dataset)
    (all_labels : list (list F)) (cfg : tree_config) (current_level : N)
  : prog (tree_node regression_leaf_np) :=
  match fuel with
  | 0 => Ret OutOfFuel
  | S fuel' =>
      let number_of_cols := length (s_columns data) in
      l0 <: idx (s_labels data) 0;;
      let number_of_targets := as_u32 (length l0) in
      split_result <~ par_find_best_split_new_partition data all_labels number_of_targets number_of_cols;;
      if stop_here split_result current_level (tc_max_levels cfg) then
        Ret (Ok (leaf_node (bs_question split_result) (mkRLN (Some data))))
      else
        let split_column := N.to_nat (q_column (bs_question split_result)) in
        let split_value := q_value (bs_question split_result) in
        '(left_data, right_data) <~ par_new_partition data split_column split_value all_labels;;
        let new_level := (current_level + 1)%N in
        left_tree <~ par_build_regression_tree_new_partition fuel' left_data all_labels cfg new_level;;
        right_tree <~ par_build_regression_tree_new_partition fuel' right_data all_labels cfg new_level;;
        Ret (Ok (node_new (bs_question split_result) left_tree right_tree))
  end.

(** decision_trees.rs:46-56 *)
Definition par_regression_tree_new_partition_new (data : sorted_dataset) (cfg : tree_config)
  : prog (tree_node regression_leaf_np) :=
  par_build_regression_tree_new_partition (S (length (s_labels data))) data (s_labels data) cfg 0.

(** grad_boost_tree_builder.rs:8-46 *)
Fixpoint par_build_grad_boost_regression_tree (fuel : nat) (data : dataset) (cfg : tree_config)
    (calc : leaf_output_calculator) (current_level : N) : prog (tree_node grad_boost_leaf) :=
  match fuel with
  | 0 => Ret OutOfFuel
  | S fuel' =>
      split_result <~ par_find_best_split data (tc_number_of_classes cfg);;
      if stop_here split_result current_level (tc_max_levels cfg) then
        leaf_output <: calc data;;
        Ret (Ok (leaf_node (bs_question split_result) (mkGL (Some leaf_output))))
      else
        '(false_data, true_data) <: partition data (bs_question split_result);;
        let new_level := (current_level + 1)%N in
        left_tree <~ par_build_grad_boost_regression_tree fuel' true_data cfg calc new_level;;
        right_tree <~ par_build_grad_boost_regression_tree fuel' false_data cfg calc new_level;;
        Ret (Ok (node_new (bs_question split_result) left_tree right_tree))
  end.

(** grad_boost_tree_builder.rs:48-92, the join at 68-85 *)
Fixpoint par_build_grad_boost_regression_tree_using_multiple_threads (fuel : nat) (data : dataset)
    (cfg : tree_config) (calc : leaf_output_calculator) (current_level : N)
  : prog (tree_node grad_boost_leaf) :=
  match fuel with
  | 0 => Ret OutOfFuel
  | S fuel' =>
      split_result <~ par_find_best_split data (tc_number_of_classes cfg);;
      if stop_here split_result current_level (tc_max_levels cfg) then
        leaf_output <: calc data;;
        Ret (Ok (leaf_node (bs_question split_result) (mkGL (Some leaf_output))))
      else
        '(false_data, true_data) <: partition data (bs_question split_result);;
        let new_level := (current_level + 1)%N in
        Fork
          (par_build_grad_boost_regression_tree_using_multiple_threads fuel' true_data cfg calc new_level)
          (par_build_grad_boost_regression_tree_using_multiple_threads fuel' false_data cfg calc new_level)
          (fun left_tree right_tree =>
             Ret (Ok (node_new (bs_question split_result) left_tree right_tree)))
  end.

(** grad_boost_decision_trees.rs:24-47 *)
Definition par_grad_boost_tree_new (data : dataset) (cfg : tree_config) (calc : leaf_output_calculator)
  : prog (tree_node grad_boost_leaf) :=
  if tc_use_multi_threading cfg
  then par_build_grad_boost_regression_tree_using_multiple_threads (fuel_for data) data cfg calc 0
  else par_build_grad_boost_regression_tree (fuel_for data) data cfg calc 0.

(** approximate_grad_boost_tree_builder.rs:7-47 *)
Fixpoint par_build_approximate_grad_boost_regression_tree (fuel : nat) (data : dataset)
    (cfg : tree_config) (calc : leaf_output_calculator) (current_level : N)
  : prog (tree_node amg_leaf) :=
  match fuel with
  | 0 => Ret OutOfFuel
  | S fuel' =>
      split_result <~ par_find_best_split data (tc_number_of_classes cfg);;
      if stop_here split_result current_level (tc_max_levels cfg) then
        leaf_output <: calc data;;
        let '(max_value, class) := find_max_value_and_index_from_vector leaf_output in
        Ret (Ok (leaf_node (bs_question split_result) (mkAL (Some max_value) (Some class))))
      else
        '(false_data, true_data) <: partition data (bs_question split_result);;
        let new_level := (current_level + 1)%N in
        left_tree <~ par_build_approximate_grad_boost_regression_tree fuel' true_data cfg calc new_level;;
        right_tree <~ par_build_approximate_grad_boost_regression_tree fuel' false_data cfg calc new_level;;
        Ret (Ok (node_new (bs_question split_result) left_tree right_tree))
  end.

(** approximate_grad_boost_tree_builder.rs:49-95, the join at 71-88 *)
Fixpoint par_build_approximate_grad_boost_regression_tree_using_multiple_threads (fuel : nat)
    (data : dataset) (cfg : tree_config) (calc : leaf_output_calculator) (current_level : N)
  : prog (tree_node amg_leaf) :=
  match fuel with
  | 0 => Ret OutOfFuel
  | S fuel' =>
      split_result <~ par_find_best_split data (tc_number_of_classes cfg);;
      if stop_here split_result current_level (tc_max_levels cfg) then
        leaf_output <: calc data;;
        let '(max_value, class) := find_max_value_and_index_from_vector leaf_output in
        Ret (Ok (leaf_node (bs_question split_result) (mkAL (Some max_value) (Some class))))
      else
        '(false_data, true_data) <: partition data (bs_question split_result);;
        let new_level := (current_level + 1)%N in
        Fork
          (par_build_approximate_grad_boost_regression_tree_using_multiple_threads fuel' true_data cfg calc new_level)
          (par_build_approximate_grad_boost_regression_tree_using_multiple_threads fuel' false_data cfg calc new_level)
          (fun left_tree right_tree =>
             Ret (Ok (node_new (bs_question split_result) left_tree right_tree)))
  end.

(** grad_boost_decision_trees.rs:57-80 *)
Definition par_amg_boost_tree_new (data : dataset) (cfg : tree_config) (calc : leaf_output_calculator)
  : prog (tree_node amg_leaf) :=
  if tc_use_multi_threading cfg
  then par_build_approximate_grad_boost_regression_tree_using_multiple_threads (fuel_for data) data cfg calc 0
  else par_build_approximate_grad_boost_regression_tree (fuel_for data) data cfg calc 0.

(* ------------------------------------------------------------------ *)
(** ** Ensembles *)

(** regression_boost_executor_functions.rs:42-54 *)
Definition par_calculate_residuals_regression (td : training_data) : prog (list (list F)) :=
  par_map (fun i =>
    true_label <- idx (labels (td_data td)) i;;
    current_label <- idx (td_labels td) i;;
    subtract_f64_slices_as_vector true_label current_label) (seq 0 (td_size td)).

(** common_multi_class_boosting_functions.rs:44-58 *)
Definition par_calculate_residuals_multi_class (td : training_data) : prog (list (list F)) :=
  par_map (fun i =>
    true_label <- idx (labels (td_data td)) i;;
    current_label <- idx (td_labels td) i;;
    let probabilities := calculate_probabilities_of_predictions current_label in
    subtract_f64_slices_as_vector true_label probabilities) (seq 0 (td_size td)).

(** The iteration loop of the three executors (see [boosting_iterations] in ModelBoost.v). *)
Fixpoint par_iterations {L} (residuals : training_data -> prog (list (list F)))
    (fit : dataset -> prog (tree_node L))
    (update : training_data -> tree_node L -> res training_data)
    (number_of_iterations : nat) (td : training_data) (trees : list (tree_node L))
  : prog (training_data * list (tree_node L)) :=
  match number_of_iterations with
  | 0 => Ret (Ok (td, trees))
  | S n =>
      r <~ residuals td;;
      tree <~ fit (with_labels (td_data td) r);;
      td' <: update td tree;;
      par_iterations residuals fit update n td' (trees ++ [tree])
  end.

(** boosting_loop.rs:11-38 *)
Definition par_boosting_loop {L} (data : dataset) (number_of_iterations : nat)
    (learning_rate : F) (ty : ensemble_type)
    (exec : training_data -> nat -> prog (training_data * list (tree_node L))) : prog (model L) :=
  let td := mkTD data (labels data) (length (labels data)) in
  initial_guess <: determine_initial_guess td ty;;
  ml <: update_dataset_labels_with_initial_guess (td_labels td) initial_guess;;
  '(_, trees) <~ exec (mkTD (td_data td) ml (td_size td)) number_of_iterations;;
  Ret (Ok (mkModel trees initial_guess learning_rate)).

(** regression_boost_ensemble.rs:19-41, regression_boost_executor_functions.rs:18-40 *)
Definition par_regression_boost_train (data : dataset) (cfg : tree_config)
    (number_of_iterations : nat) (learning_rate : F) : prog regression_boost_model :=
  par_boosting_loop data number_of_iterations learning_rate RegressionBoost
    (fun td n => par_iterations par_calculate_residuals_regression
      (fun d => par_grad_boost_tree_new d cfg (leaf_output_calculator_new Regression))
      (fun td tree => update_dataset_labels td tree learning_rate) n td []).

(** multi_class_boost_ensemble.rs:19-41, multi_class_boost_executor_functions.rs:17-40 *)
Definition par_multi_class_boost_train (data : dataset) (cfg : tree_config)
    (number_of_iterations : nat) (learning_rate : F) : prog multi_class_boost_model :=
  par_boosting_loop data number_of_iterations learning_rate MultiClassBoost
    (fun td n => par_iterations par_calculate_residuals_multi_class
      (fun d => par_grad_boost_tree_new d cfg (leaf_output_calculator_new MultiClassClassification))
      (fun td tree => update_dataset_labels td tree learning_rate) n td []).

(** amg_boost_ensemble.rs:22-44, amg_boost_executor_functions.rs:17-37 *)
Definition par_amg_boost_train (data : dataset) (cfg : tree_config)
    (number_of_iterations : nat) (learning_rate : F) : prog amg_boost_model :=
  par_boosting_loop data number_of_iterations learning_rate AMGBoost
    (fun td n => par_iterations par_calculate_residuals_multi_class
      (fun d => par_amg_boost_tree_new d cfg (leaf_output_calculator_new MultiClassClassification))
      (fun td tree => amg_update_dataset_labels td tree learning_rate) n td []).

End Par.
