(** Property C68: classification ensembles follow the gradient of the log-loss, in exact arithmetic. *)
From Coq Require Import Reals.
From Verif Require Import Base Num ModelCommon ModelTree ModelBoost Spec SpecTree XR SpecExact SpecScore SpecClass SpecAffine SpecGradient ProofGradient DemoBoostExact DemoGradient.
Local Open Scope R_scope.

(* ------------------------------------------------------------------ *)
(** ** C68 *)

(** [ss] are the scores of the training rows after [k] iterations.  Tree [k] is trained on the vectors [gs], and the
    derivative of a row's log-loss in each of its scores is minus the entry of its vector. *)
Theorem C68_multi_class_gradient (nc nt : nat) (d : dataset) (cfg : tree_config) (n : nat) (lr : R) (m : multi_class_boost_model) (k : nat) :
  (2 <= nt)%nat -> (Z.of_nat nt <= 2 ^ 53)%Z -> wf_dataset nc nt d -> one_hot_labels nt d ->
  multi_class_boost_train d cfg n (Fin lr) = Ok m -> (k < n)%nat ->
  exists ss gs t, mapM (multi_class_boost_raw (first_trees k m)) (feature_rows d) = Ok (map (map Fin) ss) /\
    nth_error (m_trees m) k = Some t /\ length gs = length (feature_rows d) /\
    grad_boost_tree_new (relabel d gs) cfg (leaf_output_calculator_new MultiClassClassification) = Ok t /\
    forall i s y c g, nth_error ss i = Some s -> nth_error (labels d) i = Some y -> one_hot nt c y -> nth_error gs i = Some g ->
      length g = nt /\ forall j, (j < nt)%nat -> derivable_pt_lim (fun x => log_loss (raised j x s) (N.to_nat c)) 0 (- nth j g 0).
Proof. exact (multi_class_gradient nc nt d cfg n lr m k). Qed.
Print Assumptions C68_multi_class_gradient.

Theorem C68_amg_gradient (nc nt : nat) (d : dataset) (cfg : tree_config) (n : nat) (lr : R) (m : amg_boost_model) (k : nat) :
  (2 <= nt)%nat -> (Z.of_nat nt <= 2 ^ 53)%Z -> wf_dataset nc nt d -> one_hot_labels nt d ->
  amg_boost_train d cfg n (Fin lr) = Ok m -> (k < n)%nat ->
  exists ss gs t, mapM (amg_boost_raw (first_trees k m)) (feature_rows d) = Ok (map (map Fin) ss) /\
    nth_error (m_trees m) k = Some t /\ length gs = length (feature_rows d) /\
    amg_boost_tree_new (relabel d gs) cfg (leaf_output_calculator_new MultiClassClassification) = Ok t /\
    forall i s y c g, nth_error ss i = Some s -> nth_error (labels d) i = Some y -> one_hot nt c y -> nth_error gs i = Some g ->
      length g = nt /\ forall j, (j < nt)%nat -> derivable_pt_lim (fun x => log_loss (raised j x s) (N.to_nat c)) 0 (- nth j g 0).
Proof. exact (amg_gradient nc nt d cfg n lr m k). Qed.
Print Assumptions C68_amg_gradient.

(** [group] holds the scores and classes of the training rows that reach the leaf of [row] in tree [k].  Each entry of
    the leaf's output is (K-1)/K of a Newton step for the log-loss of that group. *)
Theorem C68_multi_class_newton (nc nt : nat) (d : dataset) (cfg : tree_config) (n : nat) (lr : R) (m : multi_class_boost_model) (k : nat)
    (t : tree_node grad_boost_leaf) (row : list F) :
  (2 <= nt)%nat -> (Z.of_nat nt <= 2 ^ 53)%Z -> wf_dataset nc nt d -> one_hot_labels nt d ->
  multi_class_boost_train d cfg n (Fin lr) = Ok m -> nth_error (m_trees m) k = Some t -> (nc <= length row)%nat ->
  exists group o, group <> [] /\
    Forall2 (fun x p => multi_class_boost_raw (first_trees k m) (fst x) = Ok (map Fin (fst p)) /\ one_hot nt (N.of_nat (snd p)) (snd x))
      (samples_like row t d) group /\
    find_leaf_node_for_data row t = Ok (mkGL (Some (map Fin o))) /\ length o = nt /\
    forall j, (j < nt)%nat -> exists v, newton_step (group_loss j group) v /\ nth j o 0 = (INR nt - 1) / INR nt * v.
Proof. exact (multi_class_newton nc nt d cfg n lr m k t row). Qed.
Print Assumptions C68_multi_class_newton.

(** An AMG leaf keeps the largest of these steps, the first one if there are several. *)
Theorem C68_amg_newton (nc nt : nat) (d : dataset) (cfg : tree_config) (n : nat) (lr : R) (m : amg_boost_model) (k : nat)
    (t : tree_node amg_leaf) (row : list F) :
  (2 <= nt)%nat -> (Z.of_nat nt <= 2 ^ 53)%Z -> wf_dataset nc nt d -> one_hot_labels nt d ->
  amg_boost_train d cfg n (Fin lr) = Ok m -> nth_error (m_trees m) k = Some t -> (nc <= length row)%nat ->
  exists group o c, group <> [] /\
    Forall2 (fun x p => amg_boost_raw (first_trees k m) (fst x) = Ok (map Fin (fst p)) /\ one_hot nt (N.of_nat (snd p)) (snd x))
      (samples_like row t d) group /\
    find_leaf_node_for_data row t = Ok (mkAL (Some (Fin (nth c o 0))) (Some c)) /\ length o = nt /\ (c < nt)%nat /\
    forall j, (j < nt)%nat -> (nth j o 0 <= nth c o 0 /\ ((j < c)%nat -> nth j o 0 < nth c o 0)) /\
      exists v, newton_step (group_loss j group) v /\ nth j o 0 = (INR nt - 1) / INR nt * v.
Proof. exact (amg_newton nc nt d cfg n lr m k t row). Qed.
Print Assumptions C68_amg_newton.

Example C68_example : wf_dataset 1 2 two /\ one_hot_labels 2 two /\
  (exists m, multi_class_boost_train two (two_cfg 3) 5 (Fin (1/2)) = Ok m) /\
  (exists m, amg_boost_train two (two_cfg 3) 5 (Fin (1/2)) = Ok m) /\
  newton_step (group_loss 0 [([0; 0], 0%nat)]) 2.
Proof. exact (conj (proj1 two_wf) (conj two_one_hot (conj (two_multi 3 5 _) (conj (two_amg 3 5 _) even_newton)))). Qed.
