(** Property C96: boosting learns any table with a feature that tells the rows apart, in exact arithmetic. *)
From Coq Require Import Reals.
From Verif Require Import Base Num ModelCommon ModelTree ModelBoost Spec SpecTree XR SpecExact SpecScore SpecFit SpecLearn ProofLearn ProofWitness DemoExact DemoBoostExact DemoLearn.
Local Open Scope R_scope.

(* ------------------------------------------------------------------ *)
(** ** C96 *)

(** [ps] are the ensemble's predictions for the training rows, [et] the training error of a regression tree learnt from the
    residuals; [e] is the error before the iteration. *)
Theorem C96_an_iteration_moves_towards_the_tree_error (nc nt : nat) (d : dataset) (ls : list (list R)) (cfg : tree_config) (n : nat) (lr : R)
    (m m' : regression_boost_model) :
  wf_dataset nc nt d -> real_labels ls d -> (0 < nt)%nat -> standard cfg -> tc_number_of_classes cfg = N.of_nat nt ->
  regression_boost_train d cfg n (Fin lr) = Ok m -> regression_boost_train d cfg (S n) (Fin lr) = Ok m' ->
  exists ps rt e et,
    Forall2 (fun row p => regression_boost_predict m row = Ok (map Fin p) /\ length p = nt) (feature_rows d) ps /\
    regression_tree_new (residual_table d ls ps) cfg = Ok rt /\
    calculate_overall_mean_squared_error (residual_table d ls ps) rt = Ok (Fin et) /\
    regression_boost_score m d = Ok (Fin e) /\
    regression_boost_score m' d = Ok (Fin (e - lr * (2 - lr) * (e - et))).
Proof. exact (learn_tree' nc nt d ls cfg n lr m m'). Qed.
Print Assumptions C96_an_iteration_moves_towards_the_tree_error.

Theorem C96_every_iteration_removes_a_share (nc nt : nat) (d : dataset) (ls : list (list R)) (cfg : tree_config) (n : nat) (lr : R)
    (m m' : regression_boost_model) (j : nat) :
  wf_dataset nc nt d -> real_labels ls d -> (0 < nt)%nat -> standard cfg -> tc_number_of_classes cfg = N.of_nat nt ->
  tc_max_levels cfg <> 0%N -> distinct_above_minimum d -> (j < nc)%nat -> tells_apart j d -> 0 <= lr <= 2 ->
  regression_boost_train d cfg n (Fin lr) = Ok m -> regression_boost_train d cfg (S n) (Fin lr) = Ok m' ->
  exists e e', regression_boost_score m d = Ok (Fin e) /\ regression_boost_score m' d = Ok (Fin e') /\ 0 <= e /\
    e' <= (1 - lr * (2 - lr) / (INR (length ls) * INR (length ls))) * e.
Proof. exact (fun W Hl Hk Hs Hc Hm Hd Hj Ha => learn_step nc nt d ls cfg lr W Hl Hk Hs Hc j Hm Hd Hj Ha n m m'). Qed.
Print Assumptions C96_every_iteration_removes_a_share.

Theorem C96_training_error_falls_geometrically (nc nt : nat) (d : dataset) (ls : list (list R)) (cfg : tree_config) (n : nat) (lr : R)
    (m : regression_boost_model) (j : nat) :
  wf_dataset nc nt d -> real_labels ls d -> (0 < nt)%nat -> standard cfg -> tc_number_of_classes cfg = N.of_nat nt -> (Z.of_nat nt <= 2 ^ 53)%Z ->
  tc_max_levels cfg <> 0%N -> distinct_above_minimum d -> (j < nc)%nat -> tells_apart j d -> 0 <= lr <= 2 ->
  regression_boost_train d cfg n (Fin lr) = Ok m ->
  exists e, regression_boost_score m d = Ok (Fin e) /\
    0 <= e <= (1 - lr * (2 - lr) / (INR (length ls) * INR (length ls))) ^ n * (total_variance nt ls / INR nt).
Proof. exact (fun W Hl Hk Hs Hc Hn Hm Hd Hj Ha => learn_geometric nc nt d ls cfg lr W Hl Hk Hs Hc Hn j Hm Hd Hj Ha n m). Qed.
Print Assumptions C96_training_error_falls_geometrically.

Theorem C96_boosting_learns_the_training_labels (nc nt : nat) (d : dataset) (ls : list (list R)) (cfg : tree_config) (lr eps : R) (j : nat) :
  wf_dataset nc nt d -> real_labels ls d -> (0 < nt)%nat -> standard cfg -> tc_number_of_classes cfg = N.of_nat nt -> (Z.of_nat nt <= 2 ^ 53)%Z ->
  tc_max_levels cfg <> 0%N -> distinct_above_minimum d -> (j < nc)%nat -> tells_apart j d -> 0 < lr < 2 -> 0 < eps ->
  exists n0, forall n m, (n0 <= n)%nat -> regression_boost_train d cfg n (Fin lr) = Ok m ->
    forall row l, In (row, l) (combine (feature_rows d) ls) ->
    exists p, regression_boost_predict m row = Ok (map Fin p) /\ length p = nt /\
      forall t, (t < nt)%nat -> Rabs (nth t p 0 - nth t l 0) < eps.
Proof. exact (fun W Hl Hk Hs Hc Hn Hm Hd Hj Ha => learn_labels nc nt d ls cfg lr W Hl Hk Hs Hc Hn j Hm Hd Hj Ha eps). Qed.
Print Assumptions C96_boosting_learns_the_training_labels.

(** Without such a feature this can fail: rows (0,0), (0,1), (1,0), (1,1) with labels 0, 1, 1, 0 and trees of one level. *)
Theorem C96_exclusive_or_is_never_learnt (lr : R) (n : nat) (m : regression_boost_model) :
  regression_boost_train (xor_table 0 1) xor_cfg n (Fin lr) = Ok m -> regression_boost_score m (xor_table 0 1) = Ok (Fin (1/4)).
Proof. exact (xor_never lr n m). Qed.
Print Assumptions C96_exclusive_or_is_never_learnt.

Example C96_example :
  wf_dataset 1 1 plain /\ real_labels [[9]; [0]; [0]] plain /\ standard (plain_cfg 1) /\ tc_max_levels (plain_cfg 1) <> 0%N /\
  distinct_above_minimum plain /\ tells_apart 0 plain /\
  (forall n lr, exists m, regression_boost_train plain (plain_cfg 1) n (Fin lr) = Ok m) /\
  wf_dataset 2 1 (xor_table 0 1) /\ (forall n lr, exists m, regression_boost_train (xor_table 0 1) xor_cfg n (Fin lr) = Ok m).
Proof.
  refine (conj (proj1 plain_wf) (conj (proj2 plain_wf) (conj eq_refl (conj _ (conj plain_distinct (conj plain_apart
    (conj (fun n lr => plain_trained 1 n (Fin lr)) (conj (proj1 (xor_wf 0 1)) xor_trained)))))))).
  discriminate.
Qed.
