(** Property C108: what an iteration leaves over in the leaves of its tree, in exact arithmetic. *)
From Coq Require Import Reals.
From Verif Require Import Base Num ModelCommon ModelTree ModelBoost Spec SpecTree XR SpecExact SpecScore SpecFit SpecCalibrate ProofCalibrate ProofWitness DemoExact DemoBoostExact.
Local Open Scope R_scope.

(* ------------------------------------------------------------------ *)
(** ** C108 *)

(** [t] is the tree of the last iteration, [ps] and [ps'] are the predictions for the training rows before and after it. [row] may be any row: it
    names a leaf, which some training row reaches. The leaf holds what the predictions left over there on average. *)
Theorem C108_share_removed (nc nt : nat) (d : dataset) (ls : list (list R)) (cfg : tree_config) (n : nat) (lr : R) (m m' : regression_boost_model) :
  wf_dataset nc nt d -> real_labels ls d -> (0 < nt)%nat ->
  regression_boost_train d cfg n (Fin lr) = Ok m -> regression_boost_train d cfg (S n) (Fin lr) = Ok m' ->
  exists t ps ps', nth_error (m_trees m') n = Some t /\
    Forall2 (fun row p => regression_boost_predict m row = Ok (map Fin p) /\ length p = nt) (feature_rows d) ps /\
    Forall2 (fun row p => regression_boost_predict m' row = Ok (map Fin p) /\ length p = nt) (feature_rows d) ps' /\
    forall row, (nc <= length row)%nat -> (exists r, In r (feature_rows d) /\ same_leaf t row r = true) /\
      exists o, find_leaf_node_for_data row t = Ok (mkGL (Some (map Fin o))) /\ length o = nt /\
      forall j, (j < nt)%nat -> nth j o 0 = left_over t (feature_rows d) ls ps row j /\
        left_over t (feature_rows d) ls ps' row j = (1 - lr) * left_over t (feature_rows d) ls ps row j.
Proof. exact (fun W Hl Hk => calibrated nc nt d ls cfg lr W Hl Hk n m m'). Qed.
Print Assumptions C108_share_removed.

(** With learning rate 1, the predictions average to the labels in every leaf of the last tree. *)
Theorem C108_rate_one (nc nt : nat) (d : dataset) (ls : list (list R)) (cfg : tree_config) (n : nat) (m' : regression_boost_model) (row : list xr) (j : nat) :
  wf_dataset nc nt d -> real_labels ls d -> (0 < nt)%nat -> regression_boost_train d cfg (S n) (Fin 1) = Ok m' -> (nc <= length row)%nat -> (j < nt)%nat ->
  exists t ps', nth_error (m_trees m') n = Some t /\
    Forall2 (fun row p => regression_boost_predict m' row = Ok (map Fin p) /\ length p = nt) (feature_rows d) ps' /\
    (exists r, In r (feature_rows d) /\ same_leaf t row r = true) /\ left_over t (feature_rows d) ls ps' row j = 0.
Proof. exact (calibrated_full nc nt d ls cfg n m' row j). Qed.
Print Assumptions C108_rate_one.

(** Three rows, labels 0, 0 and 9. *)
Example C108_example : wf_dataset 1 1 plain /\ real_labels plain_labels plain /\ forall n lr, exists m, regression_boost_train plain (plain_cfg 2) n (Fin lr) = Ok m.
Proof. exact (conj (proj1 plain_wf) (conj (proj2 plain_wf) (fun n lr => plain_trained 2 n (Fin lr)))). Qed.
