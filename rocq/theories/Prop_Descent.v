(** Property C69: an iteration moves the scores in a direction of falling log-loss, in exact arithmetic. *)
From Coq Require Import Reals.
From Verif Require Import Base Num ModelCommon ModelTree ModelBoost Spec SpecTree XR SpecExact SpecScore SpecClass SpecGradient ProofDescent DemoBoostExact DemoDescent.
Local Open Scope R_scope.

(* ------------------------------------------------------------------ *)
(** ** C69 *)

(** One more iteration either leaves every training score as it was, or the first part of the way to the new scores
    lowers the log-loss of the training rows. *)
Theorem C69_multi_class_iteration (nc nt : nat) (d : dataset) (cfg : tree_config) (n : nat) (lr : R) (m m' : multi_class_boost_model) :
  (2 <= nt)%nat -> (Z.of_nat nt <= 2 ^ 53)%Z -> wf_dataset nc nt d -> one_hot_labels nt d -> 0 < lr ->
  multi_class_boost_train d cfg n (Fin lr) = Ok m -> multi_class_boost_train d cfg (S n) (Fin lr) = Ok m' ->
  exists ss ss' cs, mapM (multi_class_boost_raw m) (feature_rows d) = Ok (map (map Fin) ss) /\
    mapM (multi_class_boost_raw m') (feature_rows d) = Ok (map (map Fin) ss') /\ classes nt d cs /\
    (ss' = ss \/ exists delta, 0 < delta /\ forall x, 0 < x < delta ->
       total_loss (combine (map (fun p => between x (fst p) (snd p)) (combine ss ss')) cs) < total_loss (combine ss cs)).
Proof. exact (multi_class_descent nc nt d cfg n lr m m'). Qed.
Print Assumptions C69_multi_class_iteration.

Theorem C69_amg_iteration (nc nt : nat) (d : dataset) (cfg : tree_config) (n : nat) (lr : R) (m m' : amg_boost_model) :
  (2 <= nt)%nat -> (Z.of_nat nt <= 2 ^ 53)%Z -> wf_dataset nc nt d -> one_hot_labels nt d -> 0 < lr ->
  amg_boost_train d cfg n (Fin lr) = Ok m -> amg_boost_train d cfg (S n) (Fin lr) = Ok m' ->
  exists ss ss' cs, mapM (amg_boost_raw m) (feature_rows d) = Ok (map (map Fin) ss) /\
    mapM (amg_boost_raw m') (feature_rows d) = Ok (map (map Fin) ss') /\ classes nt d cs /\
    (ss' = ss \/ exists delta, 0 < delta /\ forall x, 0 < x < delta ->
       total_loss (combine (map (fun p => between x (fst p) (snd p)) (combine ss ss')) cs) < total_loss (combine ss cs)).
Proof. exact (amg_descent nc nt d cfg n lr m m'). Qed.
Print Assumptions C69_amg_iteration.

(** So a first iteration at a small enough rate lowers the log-loss, unless it changes no training score at any rate. *)
Theorem C69_multi_class_first_iteration (nc nt : nat) (d : dataset) (cfg : tree_config) (lr0 : R) (m0 m1 : multi_class_boost_model) :
  (2 <= nt)%nat -> (Z.of_nat nt <= 2 ^ 53)%Z -> wf_dataset nc nt d -> one_hot_labels nt d ->
  multi_class_boost_train d cfg 0 (Fin lr0) = Ok m0 -> multi_class_boost_train d cfg 1 (Fin lr0) = Ok m1 ->
  exists ss cs, mapM (multi_class_boost_raw m0) (feature_rows d) = Ok (map (map Fin) ss) /\ classes nt d cs /\
    ((forall lr m, multi_class_boost_train d cfg 1 (Fin lr) = Ok m -> mapM (multi_class_boost_raw m) (feature_rows d) = Ok (map (map Fin) ss)) \/
     exists delta, 0 < delta /\ forall lr m, 0 < lr < delta -> multi_class_boost_train d cfg 1 (Fin lr) = Ok m ->
       exists ss', mapM (multi_class_boost_raw m) (feature_rows d) = Ok (map (map Fin) ss') /\ total_loss (combine ss' cs) < total_loss (combine ss cs)).
Proof. exact (multi_class_first_iteration nc nt d cfg lr0 m0 m1). Qed.
Print Assumptions C69_multi_class_first_iteration.

Theorem C69_amg_first_iteration (nc nt : nat) (d : dataset) (cfg : tree_config) (lr0 : R) (m0 m1 : amg_boost_model) :
  (2 <= nt)%nat -> (Z.of_nat nt <= 2 ^ 53)%Z -> wf_dataset nc nt d -> one_hot_labels nt d ->
  amg_boost_train d cfg 0 (Fin lr0) = Ok m0 -> amg_boost_train d cfg 1 (Fin lr0) = Ok m1 ->
  exists ss cs, mapM (amg_boost_raw m0) (feature_rows d) = Ok (map (map Fin) ss) /\ classes nt d cs /\
    ((forall lr m, amg_boost_train d cfg 1 (Fin lr) = Ok m -> mapM (amg_boost_raw m) (feature_rows d) = Ok (map (map Fin) ss)) \/
     exists delta, 0 < delta /\ forall lr m, 0 < lr < delta -> amg_boost_train d cfg 1 (Fin lr) = Ok m ->
       exists ss', mapM (amg_boost_raw m) (feature_rows d) = Ok (map (map Fin) ss') /\ total_loss (combine ss' cs) < total_loss (combine ss cs)).
Proof. exact (amg_first_iteration nc nt d cfg lr0 m0 m1). Qed.
Print Assumptions C69_amg_first_iteration.

Example C69_example : wf_dataset 1 2 two /\ one_hot_labels 2 two /\ wf_dataset 1 2 lone /\ one_hot_labels 2 lone /\
  (forall n, exists m, multi_class_boost_train two (two_cfg 3) n (Fin (1/2)) = Ok m) /\
  (forall n, exists m, amg_boost_train two (two_cfg 3) n (Fin (1/2)) = Ok m) /\
  (exists ss cs delta, 0 < delta /\ forall lr m, 0 < lr < delta -> multi_class_boost_train lone (two_cfg 3) 1 (Fin lr) = Ok m ->
     exists ss', mapM (multi_class_boost_raw m) (feature_rows lone) = Ok (map (map Fin) ss') /\ total_loss (combine ss' cs) < total_loss (combine ss cs)).
Proof.
  exact (conj (proj1 two_wf) (conj two_one_hot (conj (proj1 lone_wf) (conj lone_one_hot
    (conj (fun n => two_multi 3 n _) (conj (fun n => two_amg 3 n _) lone_falls)))))).
Qed.
