(** Properties C15, C17-C21 and C24-C26: decision trees, in binary64 arithmetic on every platform. *)
From Coq Require Import Permutation Sorted.
From Flocq Require Import IEEE754.BinarySingleNaN.
From Verif Require Import Base Num ModelCommon ModelTree Spec SpecTree SpecScore F64 ProofSort ProofSplit2 ProofTree ProofTree2 ProofTree3 ProofTight Decide Check.
Local Open Scope nat_scope.

Definition z (n : Z) : f64 := f64_of_Z n.

(** Five rows, two features, two targets. *)
Definition five : @dataset (f64_ops demo_platform) :=
  @mkDS (f64_ops demo_platform)
    [[z 5; z 1]; [z 2; z 7]; [z 9; z 0]; [z 2; z 3]; [z 6; z 6]]
    [[z 1; z 0]; [z 0; z 1]; [z 1; z 0]; [z 0; z 3]; [z 0; z 2]]
    [[z 5; z 2; z 9; z 2; z 6]; [z 1; z 7; z 0; z 3; z 6]].
Definition cfg (m : N) (threads : bool) : @tree_config (f64_ops demo_platform) :=
  mkTC (split_finder_new Variance) threads 2 m.
Example five_is_well_formed : wf_dataset 2 2 five /\ standard (cfg 3 true) /\ tc_number_of_classes (cfg 3 true) = N.of_nat 2.
Proof. split; [check_wf|split; reflexivity]. Qed.

(** The tree for depth limit 1, written out; used by the examples below. *)
Example five_tree :
  let O := f64_ops demo_platform in
  regression_tree_new five (cfg 1 false) =
  Ok (node_new (@Question O 1 (z 3))
       (leaf_node (@Question O 1 (z 6)) (mkRL (Some (@mkDS O [[z 2; z 7]; [z 2; z 3]; [z 6; z 6]] [[z 0; z 1]; [z 0; z 3]; [z 0; z 2]]
          [[z 2; z 2; z 6]; [z 7; z 3; z 6]]))))
       (leaf_node (@Question O 0 (z 0)) (mkRL (Some (@mkDS O [[z 5; z 1]; [z 9; z 0]] [[z 1; z 0]; [z 1; z 0]]
          [[z 5; z 9]; [z 1; z 0]]))))).
Proof. compute_eq. Qed.

(* ------------------------------------------------------------------ *)
(** ** C17 *)

Theorem C17_regression_tree_total (P : platform) (nc nt : nat) (d : dataset) (cfg : tree_config) :
  wf_dataset nc nt d -> standard cfg -> tc_number_of_classes cfg = N.of_nat nt ->
  exists t, regression_tree_new d cfg = Ok t.
Proof. exact (regression_total (f64_laws P) nc nt d cfg). Qed.
Print Assumptions C17_regression_tree_total.

Theorem C17_grad_boost_tree_total (P : platform) (nc nt : nat) (d : dataset) (cfg : tree_config) (kind : leaf_output_type) :
  wf_dataset nc nt d -> standard cfg -> tc_number_of_classes cfg = N.of_nat nt ->
  exists t, grad_boost_tree_new d cfg (leaf_output_calculator_new kind) = Ok t.
Proof. exact (grad_boost_total (f64_laws P) nc nt d cfg kind). Qed.
Print Assumptions C17_grad_boost_tree_total.

Theorem C17_amg_tree_total (P : platform) (nc nt : nat) (d : dataset) (cfg : tree_config) (kind : leaf_output_type) :
  wf_dataset nc nt d -> standard cfg -> tc_number_of_classes cfg = N.of_nat nt ->
  exists t, amg_boost_tree_new d cfg (leaf_output_calculator_new kind) = Ok t.
Proof. exact (amg_total (f64_laws P) nc nt d cfg kind). Qed.
Print Assumptions C17_amg_tree_total.

(** Any data at all: the recursion never needs more levels than there are rows. *)
Theorem C17_terminates (P : platform) (d : dataset) (cfg : tree_config) (kind : leaf_output_type) :
  standard cfg ->
  regression_tree_new d cfg <> OutOfFuel /\
  grad_boost_tree_new d cfg (leaf_output_calculator_new kind) <> OutOfFuel /\
  amg_boost_tree_new d cfg (leaf_output_calculator_new kind) <> OutOfFuel.
Proof. exact (trees_terminate d cfg kind). Qed.
Print Assumptions C17_terminates.

(** The recursion budget of the model is immaterial: any budget above the number of rows gives the same result. *)
Theorem C17_budget_is_immaterial (P : platform) (d : dataset) (cfg : tree_config) (kind : leaf_output_type) (fuel : nat) :
  length (feature_rows d) < fuel ->
  build_regression_tree fuel d cfg 0 = build_regression_tree (fuel_for d) d cfg 0 /\
  build_grad_boost_regression_tree fuel d cfg (leaf_output_calculator_new kind) 0 =
    build_grad_boost_regression_tree (fuel_for d) d cfg (leaf_output_calculator_new kind) 0 /\
  build_approximate_grad_boost_regression_tree fuel d cfg (leaf_output_calculator_new kind) 0 =
    build_approximate_grad_boost_regression_tree (fuel_for d) d cfg (leaf_output_calculator_new kind) 0.
Proof. exact (budget_irrelevant d cfg kind fuel). Qed.
Print Assumptions C17_budget_is_immaterial.

Theorem C17_class_count_mismatch_panics (P : platform) (nc nt : nat) (d : dataset) (cfg : tree_config) (kind : leaf_output_type) :
  wf_dataset nc nt d -> standard cfg -> 0 < nc -> tc_number_of_classes cfg <> N.of_nat nt ->
  regression_tree_new d cfg = Panic /\
  grad_boost_tree_new d cfg (leaf_output_calculator_new kind) = Panic /\
  amg_boost_tree_new d cfg (leaf_output_calculator_new kind) = Panic.
Proof. exact (mismatch_panics (f64_laws P) nc nt d cfg kind). Qed.
Print Assumptions C17_class_count_mismatch_panics.

Example C17_example_mismatch :
  let c k := mkTC (O := f64_ops demo_platform) (split_finder_new Variance) false k 1 in
  regression_tree_new five (c 1%N) = Panic /\ regression_tree_new five (c 3%N) = Panic.
Proof. compute_eqs. Qed.

(* ------------------------------------------------------------------ *)
(** ** C18 *)

Theorem C18_regression_tree_depth (P : platform) (d : dataset) (cfg : tree_config) (t : tree_node regression_leaf) :
  standard cfg -> regression_tree_new d cfg = Ok t ->
  (N.of_nat (depth t) <= tc_max_levels cfg)%N /\ depth t < length (feature_rows d) /\
  (tc_max_levels cfg = 0%N -> exists q l, t = leaf_node q l).
Proof. exact (regression_depth d cfg t). Qed.
Print Assumptions C18_regression_tree_depth.

Theorem C18_grad_boost_tree_depth (P : platform) (d : dataset) (cfg : tree_config) (calc : leaf_output_calculator)
    (t : tree_node grad_boost_leaf) :
  standard cfg -> grad_boost_tree_new d cfg calc = Ok t ->
  (N.of_nat (depth t) <= tc_max_levels cfg)%N /\ depth t < length (feature_rows d) /\
  (tc_max_levels cfg = 0%N -> exists q l, t = leaf_node q l).
Proof. exact (grad_boost_depth d cfg calc t). Qed.
Print Assumptions C18_grad_boost_tree_depth.

Theorem C18_amg_tree_depth (P : platform) (d : dataset) (cfg : tree_config) (calc : leaf_output_calculator)
    (t : tree_node amg_leaf) :
  standard cfg -> amg_boost_tree_new d cfg calc = Ok t ->
  (N.of_nat (depth t) <= tc_max_levels cfg)%N /\ depth t < length (feature_rows d) /\
  (tc_max_levels cfg = 0%N -> exists q l, t = leaf_node q l).
Proof. exact (amg_depth d cfg calc t). Qed.
Print Assumptions C18_amg_tree_depth.

(** The limit is reached: with limit 1 the tree of [five] has depth 1, with limit 9 depth 3. *)
Example C18_example :
  (t <- regression_tree_new five (cfg 1 false);; Ok (depth t)) = Ok 1 /\
  (t <- regression_tree_new five (cfg 9 false);; Ok (depth t)) = Ok 3.
Proof. compute_eqs. Qed.

(* ------------------------------------------------------------------ *)
(** ** C19 *)

Theorem C19_trees_are_proper (P : platform) (d : dataset) (cfg : tree_config) (calc : leaf_output_calculator) :
  (forall t, regression_tree_new d cfg = Ok t -> proper t) /\
  (forall t, grad_boost_tree_new d cfg calc = Ok t -> proper t) /\
  (forall t, amg_boost_tree_new d cfg calc = Ok t -> proper t).
Proof. exact (trees_proper d cfg calc). Qed.
Print Assumptions C19_trees_are_proper.

Theorem C19_lookup_finds_a_leaf (P : platform) (nc nt : nat) (d : dataset) (cfg : tree_config)
    (calc : leaf_output_calculator) (row : list F) :
  wf_dataset nc nt d -> nc <= length row ->
  (forall t, regression_tree_new d cfg = Ok t -> exists l, find_leaf_node_for_data row t = Ok l /\ In l (leaves t)) /\
  (forall t, grad_boost_tree_new d cfg calc = Ok t -> exists l, find_leaf_node_for_data row t = Ok l /\ In l (leaves t)) /\
  (forall t, amg_boost_tree_new d cfg calc = Ok t -> exists l, find_leaf_node_for_data row t = Ok l /\ In l (leaves t)).
Proof. exact (lookup_total nc nt d cfg calc row). Qed.
Print Assumptions C19_lookup_finds_a_leaf.

(** Shorter rows: a panic exactly when a question on the row's path asks beyond its end. *)
Theorem C19_lookup_of_short_rows (P : platform) (L : Type) (t : tree_node L) (row : list F) :
  proper t ->
  (find_leaf_node_for_data row t = Panic <-> Exists (fun q => length row <= N.to_nat (q_column q)) (path row t)) /\
  find_leaf_node_for_data row t <> OutOfFuel.
Proof. exact (lookup_outcomes t row). Qed.
Print Assumptions C19_lookup_of_short_rows.

Example C19_example :
  let O := f64_ops demo_platform in
  (t <- regression_tree_new five (cfg 1 false);; l <- find_leaf_node_for_data [z 0; z 2; z 8] t;; Ok (option_map labels (rl_data l)))
    = Ok (Some [[z 1; z 0]; [z 1; z 0]]) /\
  (t <- regression_tree_new five (cfg 1 false);; find_leaf_node_for_data [z 0] t) = Panic.
Proof. compute_eqs. Qed.

(* ------------------------------------------------------------------ *)
(** ** C20 *)

Theorem C20_leaves_partition_the_training_set (P : platform) (nc nt : nat) (d : dataset) (cfg : tree_config)
    (t : tree_node regression_leaf) :
  wf_dataset nc nt d -> regression_tree_new d cfg = Ok t ->
  Permutation (leaf_samples t) (samples d) /\
  Forall (fun l => exists x, rl_data l = Some x /\ feature_rows x <> [] /\ wf_dataset nc nt x) (leaves t).
Proof. exact (leaves_partition nc nt d cfg t). Qed.
Print Assumptions C20_leaves_partition_the_training_set.

Example C20_example :
  (t <- regression_tree_new five (cfg 9 false);; Ok (length (leaves t))) = Ok 4.
Proof. compute_eq. Qed.

(* ------------------------------------------------------------------ *)
(** ** C21 *)

Theorem C21_leaf_holds_the_rows_on_the_path (P : platform) (nc nt : nat) (d : dataset) (cfg : tree_config)
    (t : tree_node regression_leaf) (x : list F) :
  wf_dataset nc nt d -> regression_tree_new d cfg = Ok t -> nc <= length x ->
  exists ld, find_leaf_node_for_data x t = Ok (mkRL (Some ld)) /\
    samples ld = filter (fun p => forallb (fun q => Bool.eqb (answers q (fst p)) (answers q x)) (path x t)) (samples d).
Proof. exact (leaf_on_path nc nt d cfg t x). Qed.
Print Assumptions C21_leaf_holds_the_rows_on_the_path.

Theorem C21_training_rows_reach_their_leaf (P : platform) (nc nt : nat) (d : dataset) (cfg : tree_config)
    (t : tree_node regression_leaf) (row label : list F) :
  wf_dataset nc nt d -> regression_tree_new d cfg = Ok t -> In (row, label) (samples d) ->
  exists ld, find_leaf_node_for_data row t = Ok (mkRL (Some ld)) /\ In (row, label) (samples ld).
Proof. exact (training_row_in_its_leaf nc nt d cfg t row label). Qed.
Print Assumptions C21_training_rows_reach_their_leaf.

Example C21_example :
  let O := f64_ops demo_platform in
  (t <- regression_tree_new five (cfg 9 false);; Ok (path [z 2; z 7] t)) =
  Ok [@Question O 1 (z 3); @Question O 1 (z 6); @Question O 0 (z 6)].
Proof. compute_eq. Qed.

(* ------------------------------------------------------------------ *)
(** ** C24 *)

Theorem C24_both_strategies_build_the_same_tree (P : platform) (nc nt : nat) (d : dataset) (s : sorted_dataset)
    (cfg : tree_config) :
  wf_dataset nc nt d -> create_dataset_with_sorted_features d = Ok s ->
  standard cfg -> tc_number_of_classes cfg = N.of_nat nt -> (N.of_nat nt < 2 ^ 32)%N ->
  exists t t', regression_tree_new d cfg = Ok t /\ regression_tree_new_partition_new s cfg = Ok t' /\
    tree_map (fun l => option_map s_labels (rln_data l)) t' = tree_map (fun l => option_map labels (rl_data l)) t.
Proof. exact (same_tree (f64_laws P) nc nt d s cfg). Qed.
Print Assumptions C24_both_strategies_build_the_same_tree.

(** Hence the same mean squared error on every test set, panics included. *)
Theorem C24_same_error (P : platform) (t : tree_node regression_leaf) (t' : tree_node regression_leaf_np) (test : dataset) :
  tree_map (fun l => option_map s_labels (rln_data l)) t' = tree_map (fun l => option_map labels (rl_data l)) t ->
  calculate_overall_mean_squared_error_new_partition test t' = calculate_overall_mean_squared_error test t.
Proof. exact (same_tree_mse t t' test). Qed.
Print Assumptions C24_same_error.

Example C24_example :
  (s <- create_dataset_with_sorted_features five;; t <- regression_tree_new_partition_new s (cfg 9 false);;
   Ok (tree_map (fun l => option_map s_labels (rln_data l)) t)) =
  (t <- regression_tree_new five (cfg 9 false);; Ok (tree_map (fun l => option_map labels (rl_data l)) t)).
Proof. compute_eq. Qed.

(* ------------------------------------------------------------------ *)
(** ** C25 *)

Theorem C25_grad_boost_tree_is_a_regression_tree (P : platform) (d : dataset) (cfg : tree_config) (kind : leaf_output_type) :
  standard cfg ->
  grad_boost_tree_new d cfg (leaf_output_calculator_new kind) =
  (t <- regression_tree_new d cfg;;
   tree_mapM (fun l => x <- unwrap (rl_data l);; o <- leaf_output_calculator_new kind x;; Ok (mkGL (Some o))) t).
Proof. exact (grad_boost_is_regression d cfg kind). Qed.
Print Assumptions C25_grad_boost_tree_is_a_regression_tree.

Theorem C25_amg_tree_is_a_regression_tree (P : platform) (d : dataset) (cfg : tree_config) (kind : leaf_output_type) :
  standard cfg ->
  exists largest : list F -> F * nat,
    (forall o, first_largest o (snd (largest o)) /\
       (nth_error o (snd (largest o)) = Some (fst (largest o)) \/
        fst (largest o) = fninf /\ forall y, In y o -> fltb fninf y = false)) /\
    amg_boost_tree_new d cfg (leaf_output_calculator_new kind) =
    (t <- regression_tree_new d cfg;;
     tree_mapM (fun l => x <- unwrap (rl_data l);; o <- leaf_output_calculator_new kind x;;
       Ok (mkAL (Some (fst (largest o))) (Some (snd (largest o))))) t).
Proof. exact (amg_is_regression_largest (f64_laws P) d cfg kind). Qed.
Print Assumptions C25_amg_tree_is_a_regression_tree.

Example C25_example :
  let O := f64_ops demo_platform in
  grad_boost_tree_new five (cfg 1 true) (leaf_output_calculator_new Regression) =
  Ok (node_new (@Question O 1 (z 3)) (leaf_node (@Question O 1 (z 6)) (@mkGL O (Some [z 0; z 2])))
       (leaf_node (@Question O 0 (z 0)) (@mkGL O (Some [z 1; z 0])))) /\
  amg_boost_tree_new five (cfg 1 true) (leaf_output_calculator_new Regression) =
  Ok (node_new (@Question O 1 (z 3)) (leaf_node (@Question O 1 (z 6)) (@mkAL O (Some (z 2)) (Some 1)))
       (leaf_node (@Question O 0 (z 0)) (@mkAL O (Some (z 1)) (Some 0)))).
Proof. compute_eqs. Qed.

(* ------------------------------------------------------------------ *)
(** ** C26 *)

Theorem C26_deeper_trees_refine (P : platform) (nc nt : nat) (d : dataset) (cfg : tree_config) (m n : N)
    (t : tree_node regression_leaf) :
  wf_dataset nc nt d -> (m <= n)%N -> regression_tree_new d (with_levels n cfg) = Ok t ->
  exists t', regression_tree_new d (with_levels m cfg) = Ok t' /\ cut_at (N.to_nat m) t t'.
Proof. exact (deeper_refines nc nt d cfg m n t). Qed.
Print Assumptions C26_deeper_trees_refine.

Example C26_example :
  (t <- regression_tree_new five (with_levels 9 (cfg 0 false));; Ok (depth t)) = Ok 3 /\
  (t <- regression_tree_new five (with_levels 2 (cfg 0 false));; Ok (depth t)) = Ok 2.
Proof. compute_eqs. Qed.

(* ------------------------------------------------------------------ *)
(** ** C15 *)

Theorem C15_increasing_transforms (P : platform) (D : nat -> F -> Prop) (phi : nat -> F -> F) (nc nt : nat) (d : dataset)
    (cfg : tree_config) (t : tree_node regression_leaf) :
  increasing_on D phi -> wf_dataset nc nt d -> Forall (row_in D) (feature_rows d) ->
  standard cfg -> tc_number_of_classes cfg = N.of_nat nt -> regression_tree_new d cfg = Ok t ->
  exists t', regression_tree_new (transform phi d) cfg = Ok t' /\ transformed phi t t' /\
    (forall row, row_in D row -> nc <= length row ->
      exists ld, find_leaf_node_for_data row t = Ok (mkRL (Some ld)) /\
        find_leaf_node_for_data (transform_row phi row) t' = Ok (mkRL (Some (transform phi ld)))) /\
    (forall row, row_in D row -> nc <= length row ->
      predict_class (transform_row phi row) t' = predict_class row t) /\
    (forall test, Forall (row_in D) (feature_rows test) -> Forall (fun r => nc <= length r) (feature_rows test) ->
      calculate_accuracy (transform phi test) t' = calculate_accuracy test t /\
      calculate_overall_mean_squared_error (transform phi test) t' = calculate_overall_mean_squared_error test t).
Proof. exact (transform_tree (f64_laws P) D phi nc nt d cfg t). Qed.
Print Assumptions C15_increasing_transforms.

(** Doubling feature 0 and subtracting 100 from feature 1, on the integers 0..9. *)
Definition digits : list f64 := map z [0; 1; 2; 3; 4; 5; 6; 7; 8; 9]%Z.
Definition phi (j : nat) (x : f64) : f64 :=
  match j with 0 => fadd (NumOps := f64_ops demo_platform) x x | _ => fsub (NumOps := f64_ops demo_platform) x (z 100) end.
Example C15_example :
  increasing_on (O := f64_ops demo_platform) (fun _ x => In x digits) phi /\
  Forall (row_in (O := f64_ops demo_platform) (fun _ x => In x digits)) (feature_rows five) /\
  (t <- regression_tree_new (transform (O := f64_ops demo_platform) phi five) (cfg 9 false);; Ok (path (transform_row (O := f64_ops demo_platform) phi [z 2; z 7]) t)) =
  Ok [@Question (f64_ops demo_platform) 1 (z (-97)); @Question (f64_ops demo_platform) 1 (z (-94));
      @Question (f64_ops demo_platform) 0 (z 12)].
Proof.
  split; [|split; [|compute_eq]].
  - intros j x y Hx Hy.
    assert (H : forallb (fun j => forallb (fun x => forallb (fun y =>
      Bool.eqb (fleb (NumOps := f64_ops demo_platform) (phi j x) (phi j y)) (fleb (NumOps := f64_ops demo_platform) x y)) digits) digits) [0; 1] = true)
      by (vm_compute; reflexivity).
    rewrite forallb_forall in H. assert (Hj : In (match j with 0 => 0 | _ => 1 end) [0; 1]) by (destruct j; simpl; auto).
    specialize (H _ Hj). rewrite forallb_forall in H. specialize (H _ Hx). rewrite forallb_forall in H. specialize (H _ Hy).
    apply eqb_prop in H. destruct j; exact H.
  - repeat (apply Forall_cons; [intros [|[|[|j]]] x Hx; try discriminate; injection Hx as <-; unfold digits; simpl; tauto|]).
    apply Forall_nil.
Qed.
