(** Example data for the target-order theorems (C66). *)
From Coq Require Import Reals Lra Lia ZArith Permutation.
From Verif Require Import Base Num ModelCommon ModelTree ModelBoost Spec SpecTree SpecOrder XR SpecExact SpecScore SpecFit SpecClass SpecAffine SpecRename
  ProofTree3 ProofBoost ProofRename ProofWitness DemoExact DemoBoostExact DemoOrder.
Local Open Scope R_scope.

Lemma blooms_renamed :
  target_order 2 [1%nat; 0%nat] /\ wf_dataset 2 2 blooms /\ real_labels blooms_labels blooms /\ one_hot_labels 2 blooms /\
  standard (two_cfg 3) /\ tc_number_of_classes (two_cfg 3) = N.of_nat 2 /\
  map (rename [1%nat; 0%nat]) blooms_labels = [[0; 1]; [1; 0]; [0; 1]] /\
  (exists t t', regression_tree_new blooms (two_cfg 3) = Ok t /\ regression_tree_new (relabel blooms [[0; 1]; [1; 0]; [0; 1]]) (two_cfg 3) = Ok t') /\
  (forall n lr, exists m m', regression_boost_train blooms (two_cfg 3) n lr = Ok m /\
     regression_boost_train (relabel blooms [[0; 1]; [1; 0]; [0; 1]]) (two_cfg 3) n lr = Ok m') /\
  (forall n lr, exists m m', multi_class_boost_train blooms (two_cfg 3) n lr = Ok m /\
     multi_class_boost_train (relabel blooms [[0; 1]; [1; 0]; [0; 1]]) (two_cfg 3) n lr = Ok m').
Proof.
  destruct blooms_wf as [W Hl].
  assert (W' : wf_dataset 2 2 (relabel blooms [[0; 1]; [1; 0]; [0; 1]])).
  { refine (proj1 (_ : _ /\ real_labels [[0; 1]; [1; 0]; [0; 1]] _)).
    apply (real_data_wf 2 2 [[2; 5]; [0; 5]; [1; 7]] [[2; 0; 1]; [5; 5; 7]] [[0; 1]; [1; 0]; [0; 1]]); try discriminate; try reflexivity; auto; repeat constructor. }
  split; [exact exchange|]. split; [exact W|]. split; [exact Hl|]. split; [exact blooms_one_hot|]. do 3 (split; [reflexivity|]).
  split; [|split].
  - destruct (regression_total xr_laws 2 2 _ (two_cfg 3) W eq_refl eq_refl) as (t & Et).
    destruct (regression_total xr_laws 2 2 _ (two_cfg 3) W' eq_refl eq_refl) as (t' & Et'). exists t, t'. auto.
  - intros n lr. destruct (regression_total_run xr_laws 2 2 _ (two_cfg 3) n lr W eq_refl eq_refl) as (m & E & _); [vm_compute; discriminate|].
    destruct (regression_total_run xr_laws 2 2 _ (two_cfg 3) n lr W' eq_refl eq_refl) as (m' & E' & _); [vm_compute; discriminate|]. exists m, m'. auto.
  - intros n lr. destruct (multi_class_total_run xr_laws 2 2 _ (two_cfg 3) n lr W ltac:(lia) eq_refl eq_refl) as (m & E & _); [vm_compute; discriminate|].
    destruct (multi_class_total_run xr_laws 2 2 _ (two_cfg 3) n lr W' ltac:(lia) eq_refl eq_refl) as (m' & E' & _); [vm_compute; discriminate|]. exists m, m'. auto.
Qed.
