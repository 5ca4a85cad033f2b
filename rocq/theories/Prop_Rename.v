(** Property C66: the targets in another order, in exact arithmetic. *)
From Coq Require Import Reals.
From Verif Require Import Base Num ModelCommon ModelTree ModelBoost Spec SpecTree SpecOrder XR SpecExact SpecScore SpecFit SpecClass SpecAffine SpecRename
  ProofRename ProofWitness DemoExact DemoBoostExact DemoOrder DemoRename.
Local Open Scope R_scope.

(* ------------------------------------------------------------------ *)
(** ** C66 *)

(** [order] lists the targets in their new order: the tree keeps its shape and its questions, and each prediction is the
    old one in the new order. *)
Theorem C66_tree (nc nt : nat) (d : dataset) (ls : list (list R)) (cfg : tree_config) (order : list nat) (t t' : tree_node regression_leaf) :
  target_order nt order -> wf_dataset nc nt d -> real_labels ls d -> standard cfg -> tc_number_of_classes cfg = N.of_nat nt ->
  regression_tree_new d cfg = Ok t -> regression_tree_new (relabel d (map (rename order) ls)) cfg = Ok t' ->
  tree_map (fun _ => tt) t' = tree_map (fun _ => tt) t /\
  forall row, (nc <= length row)%nat ->
    exists p, tree_prediction row t = Ok (map Fin p) /\ length p = nt /\ tree_prediction row t' = Ok (map Fin (rename order p)).
Proof. exact (tree_rename nc nt d ls cfg order t t'). Qed.
Print Assumptions C66_tree.

Theorem C66_regression_ensemble (nc nt : nat) (d : dataset) (ls : list (list R)) (cfg : tree_config) (n : nat) (lr : R) (order : list nat)
    (m m' : regression_boost_model) :
  target_order nt order -> wf_dataset nc nt d -> real_labels ls d -> standard cfg -> tc_number_of_classes cfg = N.of_nat nt ->
  regression_boost_train d cfg n (Fin lr) = Ok m ->
  regression_boost_train (relabel d (map (rename order) ls)) cfg n (Fin lr) = Ok m' ->
  Forall2 (same_questions (renamed_leaf order)) (m_trees m) (m_trees m') /\
  forall row, (nc <= length row)%nat ->
    exists p, regression_boost_predict m row = Ok (map Fin p) /\ length p = nt /\ regression_boost_predict m' row = Ok (map Fin (rename order p)).
Proof. exact (fun Ho W Hl Hs Hc => regression_rename nc nt d ls cfg n lr order Ho W Hl Hs Hc m m'). Qed.
Print Assumptions C66_regression_ensemble.

(** [s] are the class scores of the first ensemble. When one of them is strictly the largest, both ensembles predict that
    class, under its old and its new number. *)
Theorem C66_multi_class_ensemble (nc nt : nat) (d : dataset) (ls : list (list R)) (cfg : tree_config) (n : nat) (lr : R) (order : list nat)
    (m m' : multi_class_boost_model) :
  target_order nt order -> wf_dataset nc nt d -> real_labels ls d -> one_hot_labels nt d ->
  standard cfg -> tc_number_of_classes cfg = N.of_nat nt -> (2 <= nt)%nat -> (Z.of_nat nt <= 2 ^ 53)%Z ->
  multi_class_boost_train d cfg n (Fin lr) = Ok m ->
  multi_class_boost_train (relabel d (map (rename order) ls)) cfg n (Fin lr) = Ok m' ->
  Forall2 (same_questions (renamed_leaf order)) (m_trees m) (m_trees m') /\
  forall row, (nc <= length row)%nat ->
    exists s, multi_class_boost_raw m row = Ok (map Fin s) /\ length s = nt /\ multi_class_boost_raw m' row = Ok (map Fin (rename order s)) /\
      forall c, (c < nt)%nat -> (forall j, (j < nt)%nat -> j <> c -> nth j s 0 < nth c s 0) ->
        exists v, multi_class_boost_predict m row = Ok (map Fin v) /\ one_hot nt (N.of_nat c) (map Fin v) /\
          multi_class_boost_predict m' row = Ok (map Fin (rename order v)).
Proof. exact (multi_class_rename' nc nt d ls cfg n lr order m m'). Qed.
Print Assumptions C66_multi_class_ensemble.

(** Three rows of two classes, and the classes exchanged. *)
Example C66_example :
  target_order 2 [1%nat; 0%nat] /\ wf_dataset 2 2 blooms /\ real_labels blooms_labels blooms /\ one_hot_labels 2 blooms /\
  standard (two_cfg 3) /\ tc_number_of_classes (two_cfg 3) = N.of_nat 2 /\
  map (rename [1%nat; 0%nat]) blooms_labels = [[0; 1]; [1; 0]; [0; 1]] /\
  (exists t t', regression_tree_new blooms (two_cfg 3) = Ok t /\ regression_tree_new (relabel blooms [[0; 1]; [1; 0]; [0; 1]]) (two_cfg 3) = Ok t') /\
  (forall n lr, exists m m', regression_boost_train blooms (two_cfg 3) n lr = Ok m /\
     regression_boost_train (relabel blooms [[0; 1]; [1; 0]; [0; 1]]) (two_cfg 3) n lr = Ok m') /\
  (forall n lr, exists m m', multi_class_boost_train blooms (two_cfg 3) n lr = Ok m /\
     multi_class_boost_train (relabel blooms [[0; 1]; [1; 0]; [0; 1]]) (two_cfg 3) n lr = Ok m').
Proof. exact blooms_renamed. Qed.
