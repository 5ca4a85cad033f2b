(** Properties C27, C28, C29: regression trees in exact arithmetic. *)
From Coq Require Import Reals.
From Verif Require Import Base Num ModelCommon ModelTree Spec SpecTree XR SpecExact SpecScore SpecFit ProofTreeExact ProofWitness DemoExact.
Local Open Scope R_scope.

(* ------------------------------------------------------------------ *)
(** ** C27 *)

Theorem C27_prediction_is_the_leaf_mean (nc nt : nat) (d : dataset) (ls : list (list R)) (cfg : tree_config)
    (t : tree_node regression_leaf) (row : list F) :
  wf_dataset nc nt d -> real_labels ls d -> regression_tree_new d cfg = Ok t -> (nc <= length row)%nat ->
  exists group : list (list R),
    group <> [] /\ map (map Fin) group = map snd (samples_like row t d) /\
    tree_prediction row t = Ok (map (fun j => Fin (mean (target j group))) (seq 0 nt)) /\
    forall j lo hi, (j < nt)%nat -> (forall l, In l ls -> lo <= nth j l 0 <= hi) -> lo <= mean (target j group) <= hi.
Proof. exact (prediction_is_mean nc nt d ls cfg t row). Qed.
Print Assumptions C27_prediction_is_the_leaf_mean.

Example C27_example :
  wf_dataset 1 1 plain /\ real_labels [[9]; [0]; [0]] plain /\
  exists t, regression_tree_new plain (plain_cfg 2) = Ok t /\
    tree_prediction [Fin 7] t = Ok [Fin 9] /\ tree_prediction [Fin (3/2)] t = Ok [Fin 0] /\ length (path [Fin 7] t) = 1%nat.
Proof. exact (conj (proj1 plain_wf) (conj (proj2 plain_wf) plain_predicts)). Qed.

(* ------------------------------------------------------------------ *)
(** ** C28 *)

Theorem C28_deeper_fits_no_worse (nc nt : nat) (d : dataset) (ls : list (list R)) (cfg : tree_config) (m m' : N)
    (t t' : tree_node regression_leaf) :
  wf_dataset nc nt d -> real_labels ls d -> (0 < nt)%nat -> (m <= m')%N ->
  regression_tree_new d (with_levels m cfg) = Ok t -> regression_tree_new d (with_levels m' cfg) = Ok t' ->
  exists e e', calculate_overall_mean_squared_error d t = Ok (Fin e) /\
               calculate_overall_mean_squared_error d t' = Ok (Fin e') /\ e' <= e.
Proof. exact (deeper_fits_no_worse nc nt d ls cfg m m' t t'). Qed.
Print Assumptions C28_deeper_fits_no_worse.

Theorem C28_single_leaf_error_is_the_variance (nc nt : nat) (d : dataset) (ls : list (list R)) (cfg : tree_config)
    (t : tree_node regression_leaf) :
  wf_dataset nc nt d -> real_labels ls d -> (0 < nt)%nat ->
  regression_tree_new d (with_levels 0 cfg) = Ok t ->
  calculate_overall_mean_squared_error d t = Ok (Fin (total_variance nt ls / INR nt)).
Proof. exact (single_leaf_error nc nt d ls cfg t). Qed.
Print Assumptions C28_single_leaf_error_is_the_variance.

Example C28_example :
  wf_dataset 1 1 plain /\ real_labels [[9]; [0]; [0]] plain /\
  exists t t', regression_tree_new plain (with_levels 0 (plain_cfg 2)) = Ok t /\ regression_tree_new plain (plain_cfg 2) = Ok t' /\
    calculate_overall_mean_squared_error plain t = Ok (Fin 18) /\ calculate_overall_mean_squared_error plain t' = Ok (Fin 0).
Proof. exact (conj (proj1 plain_wf) (conj (proj2 plain_wf) plain_errors)). Qed.

(* ------------------------------------------------------------------ *)
(** ** C29 *)

Theorem C29_deep_tree_predicts_training_labels (nc nt : nat) (d : dataset) (ls : list (list R)) (cfg : tree_config)
    (t : tree_node regression_leaf) (row label : list F) :
  wf_dataset nc nt d -> real_labels ls d -> consistent d -> standard cfg -> tc_number_of_classes cfg = N.of_nat nt ->
  regression_tree_new d cfg = Ok t -> (N.of_nat (length (feature_rows d)) <= tc_max_levels cfg + 1)%N ->
  In (row, label) (samples d) -> tree_prediction row t = Ok label.
Proof. exact (deep_tree_fits nc nt d ls cfg t row label). Qed.
Print Assumptions C29_deep_tree_predicts_training_labels.

Theorem C29_deep_tree_has_no_training_error (nc nt : nat) (d : dataset) (ls : list (list R)) (cfg : tree_config)
    (t : tree_node regression_leaf) :
  wf_dataset nc nt d -> real_labels ls d -> consistent d -> (0 < nt)%nat -> standard cfg -> tc_number_of_classes cfg = N.of_nat nt ->
  regression_tree_new d cfg = Ok t -> (N.of_nat (length (feature_rows d)) <= tc_max_levels cfg + 1)%N ->
  calculate_overall_mean_squared_error d t = Ok (Fin 0).
Proof. exact (deep_tree_zero_error nc nt d ls cfg t). Qed.
Print Assumptions C29_deep_tree_has_no_training_error.

Theorem C29_leaf_above_the_limit_has_one_label (nc nt : nat) (d : dataset) (ls : list (list R)) (cfg : tree_config)
    (t : tree_node regression_leaf) (row : list F) (ld : dataset) :
  wf_dataset nc nt d -> real_labels ls d -> consistent d -> standard cfg -> tc_number_of_classes cfg = N.of_nat nt ->
  regression_tree_new d cfg = Ok t -> (nc <= length row)%nat ->
  (N.of_nat (length (path row t)) < tc_max_levels cfg)%N ->
  find_leaf_node_for_data row t = Ok (mkRL (Some ld)) ->
  exists l, forall l', In l' (labels ld) -> l' = l.
Proof. exact (leaf_above_limit_has_one_label nc nt d ls cfg t row ld). Qed.
Print Assumptions C29_leaf_above_the_limit_has_one_label.

Example C29_example :
  wf_dataset 1 1 plain /\ real_labels [[9]; [0]; [0]] plain /\ consistent plain /\ standard (plain_cfg 2) /\
  (N.of_nat (length (feature_rows plain)) <= tc_max_levels (plain_cfg 2) + 1)%N /\
  exists t, regression_tree_new plain (plain_cfg 2) = Ok t /\
    tree_prediction [Fin 7] t = Ok [Fin 9] /\ tree_prediction [Fin (3/2)] t = Ok [Fin 0] /\ length (path [Fin 7] t) = 1%nat.
Proof.
  exact (conj (proj1 plain_wf) (conj (proj2 plain_wf) (conj plain_consistent (conj eq_refl (conj (N.le_refl 3) plain_predicts))))).
Qed.
