(** Property C65: training predictions average to the training labels, in exact arithmetic. *)
From Coq Require Import Reals.
From Verif Require Import Base Num ModelCommon ModelTree ModelBoost Spec SpecTree XR SpecExact SpecScore SpecFit ProofBalance ProofWitness DemoExact DemoBoostExact.
Local Open Scope R_scope.

(* ------------------------------------------------------------------ *)
(** ** C65 *)

(** [ps] are the predictions for the training rows: per target they average to the average label, and the training error
    is the variance they leave unexplained, averaged over the targets. *)
Theorem C65_tree (nc nt : nat) (d : dataset) (ls : list (list R)) (cfg : tree_config) (t : tree_node regression_leaf) :
  wf_dataset nc nt d -> real_labels ls d -> regression_tree_new d cfg = Ok t ->
  exists ps, mapM (fun row => tree_prediction row t) (feature_rows d) = Ok (map (map Fin) ps) /\ rectangular nt ps /\
    (forall j, (j < nt)%nat -> mean (target j ps) = mean (target j ls)) /\
    ((0 < nt)%nat -> calculate_overall_mean_squared_error d t = Ok (Fin ((total_variance nt ls - total_variance nt ps) / INR nt))).
Proof. exact (tree_balance nc nt d ls cfg t). Qed.
Print Assumptions C65_tree.

(** For any learning rate, even one at which boosting diverges. *)
Theorem C65_ensemble (nc nt : nat) (d : dataset) (ls : list (list R)) (cfg : tree_config) (n : nat) (lr : R) (m : regression_boost_model) :
  wf_dataset nc nt d -> real_labels ls d -> regression_boost_train d cfg n (Fin lr) = Ok m ->
  exists ps, mapM (regression_boost_predict m) (feature_rows d) = Ok (map (map Fin) ps) /\ rectangular nt ps /\
    forall j, (j < nt)%nat -> mean (target j ps) = mean (target j ls).
Proof. exact (ensemble_balance nc nt d ls cfg n lr m). Qed.
Print Assumptions C65_ensemble.

(** A tree with training error 0, one with training error 18 (the variance of 9, 0, 0), and a diverging ensemble. *)
Example C65_example :
  wf_dataset 1 1 plain /\ real_labels [[9]; [0]; [0]] plain /\
  (exists t t', regression_tree_new plain (with_levels 0 (plain_cfg 2)) = Ok t /\ regression_tree_new plain (plain_cfg 2) = Ok t' /\
     calculate_overall_mean_squared_error plain t = Ok (Fin 18) /\ calculate_overall_mean_squared_error plain t' = Ok (Fin 0)) /\
  (exists m m', regression_boost_train plain (plain_cfg 2) 0 (Fin 3) = Ok m /\ regression_boost_train plain (plain_cfg 2) 1 (Fin 3) = Ok m' /\
     regression_boost_score m plain = Ok (Fin 18) /\ regression_boost_score m' plain = Ok (Fin 72)).
Proof. exact (conj (proj1 plain_wf) (conj (proj2 plain_wf) (conj plain_errors plain_above_two))). Qed.
