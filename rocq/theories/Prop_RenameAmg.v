(** Property C66, AMG ensembles: the classes in another order, in exact arithmetic. *)
From Coq Require Import Reals.
From Verif Require Import Base Num ModelCommon ModelTree ModelBoost Spec SpecTree SpecOrder F64 XR SpecExact SpecScore SpecFit SpecClass SpecAffine SpecRename
  SpecRenameAmg ProofRenameAmg ProofWitness Decide Demo DemoExact DemoBoostExact DemoOrder DemoRenameAmg.
Local Open Scope R_scope.

(* ------------------------------------------------------------------ *)
(** ** C66 *)

(** With two classes, or when no leaf has two classes sharing a largest output other than 0: the trees keep their shapes
    and their questions, the class scores are the old ones in the new order, and when one of them is strictly the largest,
    both ensembles predict that class, under its old and its new number. *)
Theorem C66_amg_ensemble (nc nt : nat) (d : dataset) (ls : list (list R)) (cfg : tree_config) (n : nat) (lr : R) (order : list nat)
    (m m' : amg_boost_model) :
  target_order nt order -> wf_dataset nc nt d -> real_labels ls d -> one_hot_labels nt d ->
  standard cfg -> tc_number_of_classes cfg = N.of_nat nt -> (2 <= nt)%nat -> (Z.of_nat nt <= 2 ^ 53)%Z ->
  amg_boost_train d cfg n (Fin lr) = Ok m ->
  amg_boost_train (relabel d (map (rename order) ls)) cfg n (Fin lr) = Ok m' ->
  nt = 2%nat \/ undisputed_leaves nc nt d m ->
  Forall2 (fun t t' => tree_map (fun _ => tt) t' = tree_map (fun _ => tt) t) (m_trees m) (m_trees m') /\
  forall row, (nc <= length row)%nat ->
    exists s, amg_boost_raw m row = Ok (map Fin s) /\ length s = nt /\ amg_boost_raw m' row = Ok (map Fin (rename order s)) /\
      forall c, (c < nt)%nat -> (forall j, (j < nt)%nat -> j <> c -> nth j s 0 < nth c s 0) ->
        exists v, amg_boost_predict m row = Ok (map Fin v) /\ one_hot nt (N.of_nat c) (map Fin v) /\
          amg_boost_predict m' row = Ok (map Fin (rename order v)).
Proof. exact (amg_rename' nc nt d ls cfg n lr order m m'). Qed.
Print Assumptions C66_amg_ensemble.

(** Three rows of two classes, and the classes exchanged. *)
Example C66_amg_example_two_classes :
  forall n lr, exists m m', amg_boost_train blooms (two_cfg 3) n (Fin lr) = Ok m /\
    amg_boost_train (relabel blooms [[0; 1]; [1; 0]; [0; 1]]) (two_cfg 3) n (Fin lr) = Ok m'.
Proof. exact blooms_renamed_amg. Qed.

(** Three classes, seen two, one and no times, listed in another order. *)
Example C66_amg_example_three_classes :
  target_order 3 [2%nat; 0%nat; 1%nat] /\ wf_dataset 1 3 triple /\ real_labels triple_labels triple /\ one_hot_labels 3 triple /\
  standard triple_cfg /\ tc_number_of_classes triple_cfg = N.of_nat 3 /\
  map (rename [2%nat; 0%nat; 1%nat]) triple_labels = [[0; 1; 0]; [0; 0; 1]; [0; 1; 0]] /\
  forall lr, exists m m', amg_boost_train triple triple_cfg 1 (Fin lr) = Ok m /\ undisputed_leaves 1 3 triple m /\
    amg_boost_train (relabel triple [[0; 1; 0]; [0; 0; 1]; [0; 1; 0]]) triple_cfg 1 (Fin lr) = Ok m'.
Proof. exact triple_renamed. Qed.

(** The condition is needed: classes 0 and 1 of three are seen once each, in one leaf. Their outputs tie, and the ensemble
    answers class 0 for both rows; with the labels of the two rows exchanged it answers class 0 as well, not class 1. *)
Example C66_amg_ties_go_to_the_smaller_number :
  let O := f64_ops taylor_platform in
  (labels tied' = map (fun l => match l with [a; b; c] => [b; a; c] | _ => l end) (labels tied)) /\
  (m <- amg_boost_train tied tied_cfg 1 (n64 1);; amg_boost_predict m [n64 0]) = Ok [n64 1; n64 0; n64 0] /\
  (m <- amg_boost_train tied' tied_cfg 1 (n64 1);; amg_boost_predict m [n64 0]) = Ok [n64 1; n64 0; n64 0].
Proof. split; [reflexivity|split; compute_eq]. Qed.
