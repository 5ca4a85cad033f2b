(** Property C94: boosting trees that already fit the training data, in exact arithmetic. *)
From Coq Require Import Reals.
From Verif Require Import Base Num ModelCommon ModelTree ModelBoost Spec SpecTree XR SpecExact SpecScore SpecFit SpecGrown ProofGrown ProofWitness DemoExact DemoGrown.
Local Open Scope R_scope.

(* ------------------------------------------------------------------ *)
(** ** C94 *)

Theorem C94_boosting_a_fitting_tree_is_that_tree_shrunk (nc nt : nat) (d : dataset) (ls : list (list R)) (cfg : tree_config) (n : nat) (lr : R)
    (T : tree_node regression_leaf) (m : regression_boost_model) :
  wf_dataset nc nt d -> real_labels ls d -> standard cfg -> tc_number_of_classes cfg = N.of_nat nt ->
  regression_tree_new d cfg = Ok T -> fits_training d T -> regression_boost_train d cfg n (Fin lr) = Ok m ->
  (forall row, (nc <= length row)%nat -> exists p, tree_prediction row T = Ok (map Fin p) /\ length p = nt /\
     regression_boost_predict m row = Ok (map Fin (towards (1 - (1 - lr) ^ n) (map (fun j => mean (target j ls)) (seq 0 nt)) p))) /\
  (forall k t, nth_error (m_trees m) k = Some t ->
     ((1 - lr) ^ k <> 0 -> tree_map (fun _ => tt) t = tree_map (fun _ => tt) T) /\
     ((1 - lr) ^ k = 0 -> nd_true t = None /\ nd_false t = None)).
Proof. exact (grown_ensemble nc nt d ls cfg n lr T m). Qed.
Print Assumptions C94_boosting_a_fitting_tree_is_that_tree_shrunk.

Theorem C94_deep_ensembles_answer_training_rows (nc nt : nat) (d : dataset) (ls : list (list R)) (cfg : tree_config) (n : nat) (lr : R)
    (m : regression_boost_model) :
  wf_dataset nc nt d -> real_labels ls d -> consistent d -> standard cfg -> tc_number_of_classes cfg = N.of_nat nt ->
  (N.of_nat (length (feature_rows d)) <= tc_max_levels cfg + 1)%N -> regression_boost_train d cfg n (Fin lr) = Ok m ->
  forall row l, In (row, l) (combine (feature_rows d) ls) ->
  regression_boost_predict m row = Ok (map Fin (towards (1 - (1 - lr) ^ n) (map (fun j => mean (target j ls)) (seq 0 nt)) l)).
Proof. exact (deep_ensemble nc nt d ls cfg n lr m). Qed.
Print Assumptions C94_deep_ensembles_answer_training_rows.

Example C94_example :
  wf_dataset 1 1 plain /\ real_labels [[9]; [0]; [0]] plain /\ consistent plain /\ standard (plain_cfg 2) /\
  (N.of_nat (length (feature_rows plain)) <= tc_max_levels (plain_cfg 2) + 1)%N /\
  exists t m, regression_tree_new plain (plain_cfg 2) = Ok t /\ fits_training plain t /\
    regression_boost_train plain (plain_cfg 2) 2 (Fin (1/2)) = Ok m /\ length (m_trees m) = 2%nat /\
    tree_prediction [Fin 7] t = Ok [Fin 9] /\ regression_boost_predict m [Fin 7] = Ok [Fin (15/2)] /\
    regression_boost_predict m [Fin (3/2)] = Ok [Fin (3/4)].
Proof.
  exact (conj (proj1 plain_wf) (conj (proj2 plain_wf) (conj plain_consistent (conj eq_refl (conj (N.le_refl 3) plain_grown))))).
Qed.
