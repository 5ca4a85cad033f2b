(** Properties C22, C23 and C45: parallel execution, under every schedule. *)
From Flocq Require Import IEEE754.BinarySingleNaN.
From Verif Require Import Base Num ModelCommon ModelTree ModelBoost ModelPar Spec SpecTree SpecPar F64 ProofPar Decide Check Demo.
Local Open Scope nat_scope.

(** Whatever [always_gives] names is the only way a run can be over. *)
Theorem C23_outcome_is_unique {A} (p : prog A) (r r' : res A) :
  always_gives p r -> run p (Ret r') -> r' = r.
Proof. exact (always_gives_unique p r r'). Qed.
Print Assumptions C23_outcome_is_unique.

(* ------------------------------------------------------------------ *)
(** ** C23 *)

Theorem C23_parallel_map_keeps_order {X B} (f : X -> res B) (g : X -> B) (l : list X) :
  (forall x, In x l -> f x = Ok (g x)) -> always_gives (par_map f l) (Ok (map g l)).
Proof. exact (par_map_in_order f g l). Qed.
Print Assumptions C23_parallel_map_keeps_order.

Theorem C23_parallel_map_panics {X B} (f : X -> res B) (l : list X) (x : X) :
  (forall y, In y l -> ends (f y)) -> In x l -> f x = Panic -> always_gives (par_map f l) Panic.
Proof. exact (par_map_panics f l x). Qed.
Print Assumptions C23_parallel_map_panics.

(** The column scans of both split searches. *)
Theorem C23_column_scans (P : platform) (d : dataset) (number_of_targets : N) :
  always_gives (par_find_best_split d number_of_targets) (find_best_split d number_of_targets).
Proof. exact (scans_any_schedule d number_of_targets). Qed.
Print Assumptions C23_column_scans.

Theorem C23_sorted_column_scans (P : platform) (d : sorted_dataset) (all_labels : list (list F)) (k : N) (n : nat) :
  always_gives (par_find_best_split_new_partition d all_labels k n) (find_best_split_new_partition d all_labels k n).
Proof. exact (sorted_scans_any_schedule d all_labels k n). Qed.
Print Assumptions C23_sorted_column_scans.

Theorem C23_column_partitioning (P : platform) (d : sorted_dataset) (column : nat) (value : F) (all_labels : list (list F)) :
  always_gives (par_new_partition d column value all_labels) (new_partition d column value all_labels).
Proof. exact (partition_any_schedule d column value all_labels). Qed.
Print Assumptions C23_column_partitioning.

Theorem C23_residuals (P : platform) (td : training_data) :
  always_gives (par_calculate_residuals_regression td) (calculate_residuals_regression td) /\
  always_gives (par_calculate_residuals_multi_class td) (calculate_residuals_multi_class td).
Proof. exact (residuals_any_schedule td). Qed.
Print Assumptions C23_residuals.

(** A schedule that finishes the elements in the order third, first, second. *)
Example C23_example_out_of_order :
  let f := fun n : nat => Ok (n * n) in
  run (par_map f [2; 3; 4])
      (ParMap f [Finished (Ok 4); Waiting 3; Finished (Ok 16)] (fun bs => Ret (Ok bs))) /\
  run (ParMap f [Finished (Ok 4); Waiting 3; Finished (Ok 16)] (fun bs => Ret (Ok bs))) (Ret (Ok [4; 9; 16])).
Proof.
  intros f. split.
  - apply run_on with (ParMap f [Waiting 2; Waiting 3; Running 4] (fun bs => Ret (Ok bs))).
    { left. exists [Waiting 2; Waiting 3], 4, []. split; reflexivity. }
    apply run_on with (ParMap f [Running 2; Waiting 3; Running 4] (fun bs => Ret (Ok bs))).
    { left. exists [], 2, [Waiting 3; Running 4]. split; reflexivity. }
    apply run_on with (ParMap f [Running 2; Waiting 3; Finished (f 4)] (fun bs => Ret (Ok bs))).
    { right; left. exists [Running 2; Waiting 3], 4, []. split; reflexivity. }
    apply run_on with (ParMap f [Finished (f 2); Waiting 3; Finished (f 4)] (fun bs => Ret (Ok bs))).
    { right; left. exists [], 2, [Waiting 3; Finished (f 4)]. split; reflexivity. }
    constructor.
  - apply run_on with (ParMap f [Finished (Ok 4); Running 3; Finished (Ok 16)] (fun bs => Ret (Ok bs))).
    { left. exists [Finished (Ok 4)], 3, [Finished (Ok 16)]. split; reflexivity. }
    apply run_on with (ParMap f [Finished (Ok 4); Finished (f 3); Finished (Ok 16)] (fun bs => Ret (Ok bs))).
    { right; left. exists [Finished (Ok 4)], 3, [Finished (Ok 16)]. split; reflexivity. }
    apply run_on with (Ret (Ok [4; 9; 16])).
    { right; right; left. exists [4; 9; 16]. split; reflexivity. }
    constructor.
Qed.

(** A panicking element: the map may panic before the others have begun. *)
Example C23_example_panic :
  let f := fun n : nat => if n =? 3 then Panic else Ok n in
  run (par_map f [2; 3; 4]) (Ret Panic) /\ (forall y, In y [2; 3; 4] -> ends (f y)).
Proof.
  intros f. split.
  - apply run_on with (ParMap f [Waiting 2; Running 3; Waiting 4] (fun bs => Ret (Ok bs))).
    { left. exists [Waiting 2], 3, [Waiting 4]. split; reflexivity. }
    apply run_on with (ParMap f [Waiting 2; Finished (f 3); Waiting 4] (fun bs => Ret (Ok bs))).
    { right; left. exists [Waiting 2], 3, [Waiting 4]. split; reflexivity. }
    apply run_on with (Ret Panic); [|constructor].
    right; right; right. split; [right; now left|]. split; [|reflexivity].
    intros x [H|[H|[H|[]]]]; discriminate.
  - intros y [<-|[<-|[<-|[]]]]; [right|left|right]; cbn; eauto.
Qed.

(* ------------------------------------------------------------------ *)
(** ** C22 *)

(** With the thread flag on or off, under every schedule, for every data set, well-formed or not: the
    call ends, and exactly as the single-threaded one, panics included. *)
Theorem C22_trees_do_not_depend_on_the_schedule (P : platform) (d : dataset) (cfg : tree_config) (kind : leaf_output_type) (flag : bool) :
  standard cfg ->
  let calc := leaf_output_calculator_new kind in
  always_gives (par_regression_tree_new d (with_threads flag cfg)) (regression_tree_new d (with_threads false cfg)) /\
  always_gives (par_grad_boost_tree_new d (with_threads flag cfg) calc) (grad_boost_tree_new d (with_threads false cfg) calc) /\
  always_gives (par_amg_boost_tree_new d (with_threads flag cfg) calc) (amg_boost_tree_new d (with_threads false cfg) calc).
Proof. exact (trees_any_schedule d cfg kind flag). Qed.
Print Assumptions C22_trees_do_not_depend_on_the_schedule.

Theorem C22_single_threaded_calls_end (P : platform) (d : dataset) (cfg : tree_config) (kind : leaf_output_type) :
  standard cfg ->
  let calc := leaf_output_calculator_new kind in
  ends (regression_tree_new d (with_threads false cfg)) /\
  ends (grad_boost_tree_new d (with_threads false cfg) calc) /\
  ends (amg_boost_tree_new d (with_threads false cfg) calc).
Proof. exact (trees_end d cfg kind). Qed.
Print Assumptions C22_single_threaded_calls_end.

(** The tree on sorted columns: its scans and its partitioning run in parallel too. *)
Theorem C22_sorted_tree_does_not_depend_on_the_schedule (P : platform) (nc nt : nat) (d : dataset) (s : sorted_dataset)
    (cfg : tree_config) :
  wf_dataset nc nt d -> create_dataset_with_sorted_features d = Ok s ->
  standard cfg -> tc_number_of_classes cfg = N.of_nat nt -> (N.of_nat nt < 2 ^ 32)%N ->
  exists t, regression_tree_new_partition_new s cfg = Ok t /\
    always_gives (par_regression_tree_new_partition_new s cfg) (Ok t).
Proof. exact (sorted_tree_any_schedule (f64_laws P) nc nt d s cfg). Qed.
Print Assumptions C22_sorted_tree_does_not_depend_on_the_schedule.

(** The multi-threaded program really forks: on four rows it reaches a state in which both children
    of the root are pending, and the right one may move before the left one. *)
Example C22_example_forks :
  let O := f64_ops taylor_platform in
  standard (four_cfg 2 true) /\ wf_dataset 1 2 four /\
  exists q td fd,
    run (par_regression_tree_new four (four_cfg 2 true))
        (Fork (par_build_regression_tree_using_multiple_threads 4 td (four_cfg 2 true) 1)
              (par_build_regression_tree_using_multiple_threads 4 fd (four_cfg 2 true) 1)
              (fun t f => Ret (Ok (node_new q t f)))) /\
    feature_rows td <> [] /\ feature_rows fd <> [].
Proof.
  intros O. split; [reflexivity|]. split; [check_wf|].
  assert (H : match find_best_split four 2 with
              | Ok s => negb (stop_here s 0 2) &&
                  match partition four (bs_question s) with
                  | Ok (fd, td) => (0 <? length (feature_rows fd)) && (0 <? length (feature_rows td))
                  | _ => false end
              | _ => false end = true) by (vm_compute; reflexivity).
  destruct (find_best_split four 2) as [s| |] eqn:Es; [|discriminate H|discriminate H].
  apply andb_true_iff in H as [Hs H]. apply negb_true_iff in Hs.
  destruct (partition four (bs_question s)) as [[fd td]| |] eqn:Ep; [|discriminate H|discriminate H].
  apply andb_true_iff in H as [H1 H2]. apply Nat.ltb_lt in H1, H2.
  exists (bs_question s), td, fd. split.
  { change (par_regression_tree_new four (four_cfg 2 true)) with
      (par_build_regression_tree_using_multiple_threads (fuel_for four) four (four_cfg 2 true) 0).
    change (fuel_for four) with 5. apply (reaches_fork 4 four (four_cfg 2 true) 0 s fd td); auto. }
  split; intros E; [rewrite E in H2; cbn in H2|rewrite E in H1; cbn in H1]; lia.
Qed.

(* ------------------------------------------------------------------ *)
(** ** C45 *)

Theorem C45_ensembles_do_not_depend_on_the_schedule (P : platform) (d : dataset) (cfg : tree_config) (n : nat) (lr : F) (flag : bool) :
  standard cfg ->
  always_gives (par_regression_boost_train d (with_threads flag cfg) n lr) (regression_boost_train d cfg n lr) /\
  always_gives (par_multi_class_boost_train d (with_threads flag cfg) n lr) (multi_class_boost_train d cfg n lr) /\
  always_gives (par_amg_boost_train d (with_threads flag cfg) n lr) (amg_boost_train d cfg n lr).
Proof. exact (ensembles_any_schedule d cfg n lr flag). Qed.
Print Assumptions C45_ensembles_do_not_depend_on_the_schedule.

Theorem C45_training_ends (P : platform) (d : dataset) (cfg : tree_config) (n : nat) (lr : F) :
  standard cfg ->
  ends (regression_boost_train d cfg n lr) /\ ends (multi_class_boost_train d cfg n lr) /\ ends (amg_boost_train d cfg n lr).
Proof. exact (ensembles_end d cfg n lr). Qed.
Print Assumptions C45_training_ends.

Example C45_example :
  let O := f64_ops taylor_platform in
  standard (O := O) (four_cfg 2 true) /\
  (m <- amg_boost_train four (four_cfg 2 true) 2 (n64 1);; Ok (length (m_trees m))) = Ok 2.
Proof. split; [reflexivity|compute_eq]. Qed.
