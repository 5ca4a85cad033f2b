(** Data for the examples about maps of the target space. *)
From Coq Require Import Reals Lra Lia.
From Flocq Require Import IEEE754.BinarySingleNaN.
From Verif Require Import Base Num F64 XR ModelCommon ModelTree ModelBoost Lib Spec SpecTree SpecFit SpecExact SpecAffine SpecRotate SpecMirror
  ProofReal ProofTree ProofTree2 ProofTree3 ProofBoost ProofSplitExact ProofRotate Decide Check Demo DemoExact DemoBoostExact.
Local Open Scope R_scope.

(** The rotation with cosine 3/5 and sine 4/5. *)
Definition rotation : list (list R) := [[3/5; -(4/5)]; [4/5; 3/5]].

Lemma rotation_keeps : keeps_shapes 2 1 rotation.
Proof.
  split; [lra|]. split; [repeat constructor|]. intros [|x [|y [|? ?]]] L; try discriminate.
  unfold rotation, dot, Rsum. cbn. field.
Qed.

Lemma rotated_trained : exists m t m' t',
  regression_boost_train two (two_cfg 2) 3 (Fin (1/2)) = Ok m /\ regression_tree_new two (two_cfg 2) = Ok t /\
  regression_boost_train (relabel two (map (transform rotation [1; 7]) [[1; 0]; [0; 1]])) (for_targets 2 (two_cfg 2)) 3 (Fin (1/2)) = Ok m' /\
  regression_tree_new (relabel two (map (transform rotation [1; 7]) [[1; 0]; [0; 1]])) (for_targets 2 (two_cfg 2)) = Ok t'.
Proof.
  pose proof (relabel_turned 1 2 2 rotation eq_refl two _ [1; 7] (proj1 two_wf) (proj2 two_wf) eq_refl) as (W & W' & _).
  destruct (regression_total_run xr_laws 1 2 _ (two_cfg 2) 3 (Fin (1/2)) W eq_refl eq_refl) as (m & E & _); [vm_compute; discriminate|].
  destruct (regression_total xr_laws 1 2 _ (two_cfg 2) W eq_refl eq_refl) as (t & Et).
  destruct (regression_total_run xr_laws 1 2 _ (for_targets 2 (two_cfg 2)) 3 (Fin (1/2)) W' eq_refl eq_refl) as (m' & E' & _); [vm_compute; discriminate|].
  destruct (regression_total xr_laws 1 2 _ (for_targets 2 (two_cfg 2)) W' eq_refl eq_refl) as (t' & Et'). exists m, t, m', t'. auto.
Qed.

(** Two features; the first target follows the first, the second target the second. *)
Local Notation O := (f64_ops taylor_platform).
Definition crossed (a b : Z) : @dataset O :=
  @mkDS O [[n64 0; n64 0]; [n64 0; n64 1]; [n64 1; n64 0]; [n64 1; n64 1]]
    [[n64 0; n64 0]; [n64 0; n64 b]; [n64 a; n64 0]; [n64 a; n64 b]] [[n64 0; n64 0; n64 1; n64 1]; [n64 0; n64 1; n64 0; n64 1]].
Definition crossed_cfg : @tree_config O := @mkTC O (split_finder_new Variance) false 2 1.

Lemma stretched : exists t t',
  regression_tree_new (crossed 10 1) crossed_cfg = Ok t /\ regression_tree_new (crossed 10 100) crossed_cfg = Ok t' /\
  tree_map (fun _ => tt) t <> tree_map (fun _ => tt) t'.
Proof.
  set (col := fun t : @tree_node O (@regression_leaf O) => match t with TreeNode _ q _ _ _ => q_column q end).
  assert (H : match regression_tree_new (crossed 10 1) crossed_cfg, regression_tree_new (crossed 10 100) crossed_cfg with
    | Ok t, Ok t' => (col t =? 0)%N && (col t' =? 1)%N | _, _ => false end = true) by (vm_compute; reflexivity).
  destruct (regression_tree_new (crossed 10 1) crossed_cfg) as [t| |] eqn:E; [|discriminate H|discriminate H].
  destruct (regression_tree_new (crossed 10 100) crossed_cfg) as [t'| |] eqn:E'; [|discriminate H|discriminate H].
  exists t, t'. split; [reflexivity|]. split; [reflexivity|]. intros Eq. apply andb_true_iff in H as [H1 H2]. apply N.eqb_eq in H1, H2.
  destruct t as [q a b l], t' as [q' a' b' l']. cbn in Eq, H1, H2. injection Eq as Eq _ _ _. subst q'. congruence.
Qed.
