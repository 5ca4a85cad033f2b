(** Property C64: exactly when training panics, in binary64 arithmetic on every platform. *)
From Flocq Require Import IEEE754.BinarySingleNaN.
From Verif Require Import Base Num ModelCommon ModelTree ModelBoost Spec SpecTree SpecPanic F64 ProofPanic Decide Check Demo.
Local Open Scope nat_scope.

(* ------------------------------------------------------------------ *)
(** ** C64 *)

(** Labels may be any floats, NaN and infinities included. *)
Theorem C64_trees (P : platform) (nc nt : nat) (d : dataset) (cfg : tree_config) (kind : leaf_output_type) :
  rect_dataset nc nt d -> standard cfg -> tc_number_of_classes cfg = N.of_nat nt ->
  succeeds_exactly_if (trainable d) (regression_tree_new d cfg) /\
  succeeds_exactly_if (trainable d) (grad_boost_tree_new d cfg (leaf_output_calculator_new kind)) /\
  succeeds_exactly_if (trainable d) (amg_boost_tree_new d cfg (leaf_output_calculator_new kind)).
Proof. exact (trees_panic_exactly P nc nt d cfg kind). Qed.
Print Assumptions C64_trees.

(** With no iterations no tree is trained, so one row is enough. *)
Theorem C64_ensembles (P : platform) (nc nt : nat) (d : dataset) (cfg : tree_config) (n : nat) (lr : F) :
  rect_dataset nc nt d -> standard cfg -> tc_number_of_classes cfg = N.of_nat nt -> (Z.of_nat nt <= 2 ^ 53)%Z ->
  succeeds_exactly_if (trainable d \/ n = 0 /\ feature_rows d <> []) (regression_boost_train d cfg n lr) /\
  succeeds_exactly_if (trainable d \/ n = 0 /\ feature_rows d <> []) (multi_class_boost_train d cfg n lr) /\
  (0 < nt -> succeeds_exactly_if (trainable d \/ n = 0 /\ feature_rows d <> []) (amg_boost_train d cfg n lr)).
Proof.
  exact (fun R Hs Hk Hn => conj (regression_ensemble_panics_exactly P nc nt d cfg n lr R Hs Hk Hn)
    (conj (multi_class_ensemble_panics_exactly P nc nt d cfg n lr R Hs Hk Hn)
          (amg_ensemble_panics_exactly P nc nt d cfg n lr R Hs Hk Hn))).
Qed.
Print Assumptions C64_ensembles.

(** One row with a NaN feature trains; a second row makes training panic; so does having no row. *)
Definition nan_data (more : bool) : @dataset (f64_ops taylor_platform) :=
  if more then @mkDS (f64_ops taylor_platform) [[B754_nan]; [n64 1]] [[n64 1; n64 0]; [n64 0; n64 1]] [[B754_nan; n64 1]]
  else @mkDS (f64_ops taylor_platform) [[B754_nan]] [[n64 1; n64 0]] [[B754_nan]].

Example C64_example :
  let O := f64_ops taylor_platform in
  (forall more, rect_dataset 1 2 (nan_data more)) /\ trainable (nan_data false) /\ ~ trainable (nan_data true) /\ trainable four /\
  (t <- regression_tree_new (nan_data false) (four_cfg 2 true);; Ok (is_leaf_node t)) = Ok true /\
  (t <- regression_tree_new (nan_data true) (four_cfg 2 true);; Ok (is_leaf_node t)) = Panic /\
  (m <- regression_boost_train (nan_data true) (four_cfg 2 true) 1 (n64 1);; Ok (length (m_trees m))) = Panic /\
  (m <- regression_boost_train (nan_data true) (four_cfg 2 true) 0 (n64 1);; Ok (length (m_trees m))) = Ok 0 /\
  (m <- regression_boost_train (nan_data false) (four_cfg 2 true) 1 (n64 1);; Ok (length (m_trees m))) = Ok 1.
Proof.
  cbn zeta. split; [|split; [|split; [|split]]].
  - intros []; (constructor; cbn; [reflexivity|repeat constructor|repeat constructor| |discriminate]);
      (split; [reflexivity|]; intros [|[|j]] col Ec; try discriminate; injection Ec as <-; (split; [reflexivity|]);
       intros [|[|[|i]]] row Er; try discriminate; injection Er as <-; (split; [constructor|reflexivity])).
  - split; [discriminate|now left].
  - intros (_ & [H|H]); [discriminate|]. apply Forall_inv in H. apply Forall_inv in H. discriminate.
  - split; [discriminate|]. right. repeat constructor.
  - compute_eqs.
Qed.
